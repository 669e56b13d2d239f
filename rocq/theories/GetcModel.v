(* The command line of get, main_get.c. *)
From Coq Require Import String.
From Verif Require Import Base ProgModel StoreModel CgiModel CmdModel.
Open Scope string_scope.
Open Scope list_scope.
Open Scope N_scope.

(* main_get's variables of, quiet, zip and hdr_only, main_get.c:93-95 *)
Record gopts := mkGO { go_o : option bytes; go_q : bool; go_z : bool; go_n : bool }.

(* the option loop, main_get.c:99-121; None: exit(1) *)
Fixpoint get_opts (o : gopts) (l : list optev) : option gopts :=
  match l with
  | [] => Some o
  | OOpt 110 None :: r => get_opts (mkGO (go_o o) (go_q o) (go_z o) (negb (go_n o))) r
  | OOpt 111 (Some v) :: r => get_opts (mkGO (Some v) (go_q o) (go_z o) (go_n o)) r
  | OOpt 113 None :: r => get_opts (mkGO (go_o o) (negb (go_q o)) (go_z o) (go_n o)) r
  | OOpt 122 None :: r => get_opts (mkGO (go_o o) (go_q o) (negb (go_z o)) (go_n o)) r
  | _ => None
  end.

(* What is on standard output and standard error in the end, and which file has been
   opened for writing, with its contents; messages are left out. *)
Record gout := mkOut { g_stdout : bytes; g_stderr : bytes; g_file : option (bytes * bytes) }.

Section Getc.
Variable C : conf.
Variable L : zlib.
Variable openable : bytes -> bool.     (* fopen(3) of that name for writing succeeds *)

(* main_get, main_get.c:82-191; args are those behind argv[0].  The exit status and what
   was printed; exit(1) before fopen at 136 is Die DExit.  fopen's result is not tested, and
   fwrite(3) to a null pointer is undefined, here only after the last check on the object.
   Writing does not fail. *)
Definition get_cmd (args : list bytes) : prog (N * gout) :=
  let (ev, ops) := getopt "ho:nqz" args in
  match get_opts (mkGO None false false false) ev, ops with
  | Some o, [arg] =>
      let! r := main_get_out C L (go_z o) (go_q o) (go_n o) arg in
      match go_o o, r with
      | None, None => Ret (1, mkOut [] [] None)
      | None, Some (h, d) => Ret (0, mkOut d h None)
      | Some f, None => Ret (1, mkOut [] [] (if openable f then Some (f, []) else None))
      | Some f, Some (h, d) =>
          if openable f then Ret (0, mkOut h [] (Some (f, d)))
          else if go_n o then Ret (0, mkOut h [] None)
          else Die DUB
      end
  | _, _ => Die DExit
  end.
End Getc.
