(* The command lines of byid, dumpindex, housekeeping and info, and _testbytes.  In all of
   them args are the arguments behind argv[0], and usage texts are left out. *)
From Coq Require Import String.
From Verif Require Import Base IndexModel HeaderModel ProgModel StoreModel IdsModel CmdModel MkModel.
Open Scope string_scope.
Open Scope list_scope.
Open Scope N_scope.

(* ------------------------------------------------------------------ *)
(* main_byid.c *)

(* the option loop, main_byid.c:103-115; None: exit(1) *)
Fixpoint byid_opts (ok : bool) (l : list optev) : option bool :=
  match l with
  | [] => Some ok
  | OOpt 101 None :: r => byid_opts true r
  | _ => None
  end.

(* main_byid, main_byid.c:90-132: what is printed and the exit status *)
Definition byid_cmd (C : conf) (args : list bytes) : prog (bytes * N) :=
  let (ev, ops) := getopt "he" args in
  match byid_opts false ev with
  | None => Die DExit
  | Some ok => main_byid C ok ops
  end.

(* ------------------------------------------------------------------ *)
(* main_dumpindex.c *)

(* the option loop, main_dumpindex.c:76-97.  The code keeps the flag, this the word for
   it. *)
Fixpoint dump_opts (t : option bytes) (l : list optev) : option (option bytes) :=
  match l with
  | [] => Some t
  | OOpt 116 (Some v) :: r => match dump_type (Some v) with None => None | Some _ => dump_opts (Some v) r end
  | _ => None
  end.

(* main_dumpindex, main_dumpindex.c:67-107; None: exit(1) *)
Definition dump_cmd (st : ifs) (args : list bytes) : res (option bytes) :=
  let (ev, ops) := getopt "ht:" args in
  match dump_opts None ev with
  | None => Ok None
  | Some t => main_dumpindex st t ops
  end.

(* ------------------------------------------------------------------ *)
(* main_housekeeping, main_housekeeping.c:52-78; all options end in exit(1), here None *)
Definition housekeeping_cmd (sort_size : N) (st : ifs) (args : list bytes) : res (option ifs) :=
  let (ev, ops) := getopt "h" args in
  match ev, ops with
  | [], [] => let* st' := IDX_Resort sort_size st in Ok (Some st')
  | [], _ => Abort                                                 (* AZ(argc), 72 *)
  | _, _ => Ok None
  end.

(* ------------------------------------------------------------------ *)
(* main_info, main_info.c:52-82; None: exit(1) *)
Definition info_cmd (json : bool) (id_size : N) (args : list bytes) : option bytes :=
  let (ev, ops) := getopt "h" args in
  match ev, ops with
  | [], [] => Some (if json
      then str "[ ""AardWARC"", ""info"", ""1"", {" ++ [10] ++ str "    ""id_size"": " ++ dec id_size ++ [10] ++ str "} ]" ++ [10]
      else str "id_size: " ++ dec id_size ++ [10])
  | _, _ => None
  end.

(* ------------------------------------------------------------------ *)
(* main_testbytes.c *)

(* the option loop, main_testbytes.c:64-77; None: exit(1) *)
Fixpoint test_opts (n : N) (l : list optev) : option N :=
  match l with
  | [] => Some n
  | OOpt 110 (Some v) :: r => test_opts (strtoul v) r
  | _ => None
  end.

Section Testbytes.
Variable sha : bytes -> bytes.         (* SHA-256, as 32 bytes *)

(* the loop, main_testbytes.c:85-91 *)
Fixpoint test_loop (fuel : nat) (dig : bytes) (n : N) : res bytes :=
  if n =? 0 then Ok [] else
  match fuel with
  | O => Fuel
  | S f =>
      let d := sha dig in
      let* r := test_loop f d (n - N.min 32 n) in
      Ok (firstn (N.to_nat (N.min 32 n)) d ++ r)
  end.

(* main__testbytes, main_testbytes.c:54-94 *)
Definition testbytes_cmd (fuel : nat) (args : list bytes) : res (option bytes) :=
  let (ev, ops) := getopt "hn:" args in
  match test_opts 0 ev, ops with
  | None, _ => Ok None
  | Some n, [] => let* out := test_loop fuel (repeat 0 32) n in Ok (Some out)
  | Some n, _ => Abort                                             (* AZ(argc), 81 *)
  end.
End Testbytes.
