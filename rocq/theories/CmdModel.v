(* Command lines: main.c, the options of main_store.c and reading its input.
   Texts are bytes without the final NUL. *)
From Coq Require Import String.
From Verif Require Import Base IndexModel ProgModel StoreModel ConfigModel.
Open Scope string_scope.
Open Scope list_scope.
Open Scope N_scope.

(* ------------------------------------------------------------------ *)
(* getopt(3), as POSIX has it: called until it returns -1.  The options in turn
   (OBad: '?', an unknown one or one without its argument) and the operands. *)
Inductive optev := OOpt (c : N) (arg : option bytes) | OBad.

(* Is c an option of ostr, and does it take an argument? *)
Fixpoint takes (ostr : bytes) (c : N) : option bool :=
  match ostr with
  | [] => None
  | x :: r => if (x =? c) && negb (c =? 58) then Some (match r with y :: _ => y =? 58 | [] => false end) else takes r c
  end.

(* the rest p of an argument which begins with '-', next: the arguments behind *)
Fixpoint group (ostr p : bytes) (next : list bytes) : list optev * list bytes :=
  match p with
  | [] => ([], next)
  | c :: q =>
      match takes ostr c with
      | None => let (e, n) := group ostr q next in (OBad :: e, n)
      | Some false => let (e, n) := group ostr q next in (OOpt c None :: e, n)
      | Some true =>
          match q with
          | [] => match next with v :: n => ([OOpt c (Some v)], n) | [] => ([OBad], []) end
          | _ => ([OOpt c (Some q)], next)
          end
      end
  end.

Fixpoint getopt_loop (fuel : nat) (ostr : bytes) (args : list bytes) : list optev * list bytes :=
  match fuel, args with
  | S f, (d :: c :: q) :: r =>
      if negb (d =? 45) then ([], args)
      else if (c =? 45) && match q with [] => true | _ => false end then ([], r)
      else let (e, n) := group ostr (c :: q) r in
           let (e', o) := getopt_loop f ostr n in (e ++ e', o)
  | _, _ => ([], args)
  end.
Definition getopt (ostr : string) (args : list bytes) : list optev * list bytes :=
  getopt_loop (List.length args) (str ostr) args.

(* ------------------------------------------------------------------ *)
(* main_store.c                                                         *)

(* main_store's variables wt, mt, r_arg and i_arg, main_store.c:99-109 *)
Record sopts := mkSO { so_t : option bool; so_m : bytes; so_r : option bytes; so_i : option bytes }.

(* one round of the option loop, main_store.c:114-156; None: exit(1).  so_t: is
   it metadata? *)
Definition store_opt (o : sopts) (e : optev) : option sopts :=
  match e with
  | OOpt 105 (Some v) => match so_i o with Some _ => None | None => Some (mkSO (so_t o) (so_m o) (so_r o) (Some v)) end
  | OOpt 109 (Some v) => Some (mkSO (so_t o) v (so_r o) (so_i o))
  | OOpt 116 (Some v) =>
      match so_t o with
      | Some _ => None
      | None => if caseeq v (str "resource") then Some (mkSO (Some false) (so_m o) (so_r o) (so_i o))
                else if caseeq v (str "metadata") then Some (mkSO (Some true) (so_m o) (so_r o) (so_i o))
                else None
      end
  | OOpt 114 (Some v) => match so_r o with Some _ => None | None => Some (mkSO (so_t o) (so_m o) (Some v) (so_i o)) end
  | _ => None
  end.
Fixpoint store_opts (o : sopts) (l : list optev) : option sopts :=
  match l with [] => Some o | e :: r => match store_opt o e with Some o' => store_opts o' r | None => None end end.

(* mime_type, main_store.c:57-75: is it allowed?  (mime_validator is never used) *)
Definition mime_type (cfg : config) (meta : bool) (mt : bytes) : bool :=
  match Config_Find cfg (if meta then str "metadata.mime-types" else str "resource.mime-types") mt with
  | Some _ => true | None => false end.

(* What read(2) of up to 128 kilobytes returns: data, nothing at the end, or an error *)
Inductive rd := RData (d : bytes) | RErr.

(* the calls of read, main_store.c:221-229 and 257-262: what is fed to the segjob.
   The first one is tested for an error, but that is exit(1) as for an empty file. *)
Fixpoint read_all (l : list rd) : list bytes :=
  match l with
  | RData d :: r => match d with [] => [] | _ => d :: read_all r end
  | _ => []
  end.

Section Cmd.
Variable C : conf.
Variable L : zlib.
Variable cfg : config.
(* the file of that name, None: standard input; None: it cannot be opened *)
Variable input : option bytes -> option (list rd).

(* the whole of main_store, main_store.c:91-278; args are those behind argv[0].
   The identifiers of -r and -i are tested in [main_store] below, here after the tests of
   mime type and input; the order of tests which all end in exit(1) makes no difference. *)
Definition store_cmd (args : list bytes) : prog bytes :=
  let (ev, ops) := getopt "hi:m:t:r:" args in
  match store_opts (mkSO None (str "application/octet-stream") None None) ev with
  | None => Die DExit
  | Some o =>
      let meta := match so_t o with Some b => b | None => false end in
      if negb meta && (match so_r o with Some _ => true | None => false end || match so_i o with Some _ => true | None => false end)
      then Die DExit
      else if meta && match so_r o with Some _ => false | None => true end then Die DExit
      else
        match (match ops with
               | [] => input None
               | [f] => if bytes_eqb f (str "-") then input None else input (Some f)
               | _ => None
               end) with
        | None => Die DExit
        | Some rds =>
            if negb (mime_type cfg meta (so_m o)) then Die DExit
            else main_store C L (mkReq meta (so_m o) (match so_r o with Some v => v | None => [] end) (so_i o) (read_all rds))
        end
  end.
End Cmd.

(* ------------------------------------------------------------------ *)
(* main.c                                                               *)

(* mains[], main.c:43-68 *)
Inductive command :=
| CAudit | CByid | CCgi | CDumpindex | CFilter | CGet | CHousekeeping | CInfo | CMksilo | CRebuild | CReindex
| CStevedore | CStore | CStow | CTestbytes.
Definition mains : list (bytes * command * bool) :=
  [(str "audit", CAudit, false); (str "byid", CByid, false); (str "cgi", CCgi, false); (str "dumpindex", CDumpindex, false);
   (str "filter", CFilter, false); (str "get", CGet, false); (str "housekeeping", CHousekeeping, false); (str "info", CInfo, true);
   (str "mksilo", CMksilo, false); (str "rebuild", CRebuild, false); (str "reindex", CReindex, false); (str "stevedore", CStevedore, false);
   (str "store", CStore, false); (str "stow", CStow, false); (str "_testbytes", CTestbytes, false)].

(* What main comes to: exit with a status, a failed assertion, or a command with
   this configuration, with -j or not, and its arguments. *)
Inductive outcome := MExit (n : N) | MAbort | MRun (aa : aardwarc) (c : command) (json : bool) (args : list bytes).

(* call_main, main.c:87-104 *)
Definition call_main (aa : aardwarc) (json : bool) (name : bytes) (args : list bytes) : outcome :=
  match find (fun m => bytes_eqb (fst (fst m)) name) mains with
  | None => MExit 1
  | Some (_, c, j) => if json && negb j then MExit 2 else MRun aa c json args
  end.

(* the option loop of main, main.c:119-136: -c and -j; None: exit(1) *)
Fixpoint main_opts (cf : option bytes) (json : bool) (l : list optev) : option (option bytes * bool) :=
  match l with
  | [] => Some (cf, json)
  | OOpt 99 (Some v) :: r => main_opts (Some v) json r
  | OOpt 106 None :: r => main_opts cf true r
  | _ => None
  end.

Section Main.
Variable strtoul : bytes -> N.
Variable vnum_2bytes : bytes -> option N.
Variable fmtcheck : bytes -> bool.
Variable files : bytes -> option bytes.   (* contents of the files which can be opened *)
Variable home : option bytes.             (* getenv("HOME") *)
Variable bufsiz : N.                      (* BUFSIZ *)

(* AardWARC_New of a file, aardwarc.c:47-80; None: NULL with a message *)
Definition load (f : bytes) : option aardwarc :=
  match files f with
  | None => None
  | Some c => match Config_Read c with None => None | Some cfg => AardWARC_New strtoul vnum_2bytes fmtcheck cfg end
  end.

Definition or_load (a : option aardwarc) (f : bytes) : option aardwarc := match a with Some _ => a | None => load f end.

(* main, main.c:106-200 *)
Definition main (args : list bytes) : outcome :=
  let (ev, ops) := getopt "c:hj" args in
  match main_opts None false ev with
  | None => MExit 1
  | Some (cf, json) =>
      match ops with
      | [] => MExit 1
      | name :: rest =>
          match cf with
          | Some f => match load f with None => MExit 2 | Some aa => call_main aa json name rest end
          | None =>
              let try (a : option aardwarc) :=
                match or_load (or_load a (str "/etc/aardwarc.conf")) (str "/usr/local/etc/aardwarc.conf") with
                | None => MExit 1
                | Some aa => call_main aa json name rest
                end in
              match home with
              | None => try None
              | Some h =>
                  let f := h ++ str "/.aardwarc.conf" in
                  if bufsiz <=? len f then MAbort else try (load f)
              end
          end
      end
  end.
End Main.
