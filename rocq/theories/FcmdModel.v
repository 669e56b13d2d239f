(* The command line of filter, main_filter.c. *)
From Coq Require Import String.
From Verif Require Import Base IndexModel ProgModel StoreModel CmdModel FilterModel.
Open Scope string_scope.
Open Scope list_scope.
Open Scope N_scope.

(* main_filter's variables ofile, r_flag, s_flag and v_flag, main_filter.c:201-207 *)
Record fopts := mkFO { fo_o : option bytes; fo_r : bool; fo_s : bool; fo_v : bool }.

(* the option loop, main_filter.c:217-239; None: exit(1) *)
Fixpoint filter_opts (o : fopts) (l : list optev) : option fopts :=
  match l with
  | [] => Some o
  | OOpt 111 (Some v) :: r => filter_opts (mkFO (Some v) (fo_r o) (fo_s o) (fo_v o)) r
  | OOpt 114 None :: r => filter_opts (mkFO (fo_o o) (negb (fo_r o)) (fo_s o) (fo_v o)) r
  | OOpt 115 None :: r => filter_opts (mkFO (fo_o o) (fo_r o) (negb (fo_s o)) (fo_v o)) r
  | OOpt 118 None :: r => filter_opts (mkFO (fo_o o) (fo_r o) (fo_s o) (negb (fo_v o))) r
  | _ => None
  end.

(* The files of the user, by name; None: fopen(3) for reading fails.  Two names are two
   files. *)
Definition files := bytes -> option bytes.
Definition put (fs : files) (f d : bytes) : files := fun g => if bytes_eqb g f then Some d else fs g.

Section Fcmd.
Variable qsort : list scand -> list scand.
Variable bufsiz : nat.
Variable prefix : bytes.
Variable id_size : N.
Variable hdr_id : N -> N -> res bytes.
Variable st : ifs.
Variable stdin : bytes.
Variable writable : bytes -> bool.     (* fopen(3) of that name for writing succeeds *)

(* the loop over the operands, main_filter.c:254-271; used: stdin_done; None: exit(1) *)
Fixpoint read_args (fs : files) (used : bool) (ops : list bytes) : res (option (list cand)) :=
  match ops with
  | [] => Ok (Some [])
  | a :: r =>
      let dash := bytes_eqb a (str "-") in
      match (if dash then (if used then None else Some stdin) else fs a) with
      | None => Ok None
      | Some f =>
          let* x := read_file (List.length f) bufsiz prefix id_size f in
          match x with
          | None => Ok None
          | Some l => let* b := read_args fs (used || dash) r in Ok (option_map (app l) b)
          end
      end
  end.

(* main_filter.c:245-252; None: exit(1) *)
Definition open_out (fs : files) (o : option bytes) : option files :=
  match o with None => Some fs | Some f => if writable f then Some (put fs f []) else None end.

(* main_filter, main_filter.c:196-300; args are those behind argv[0].  The files
   afterwards, the exit status and what is on standard output (messages are left
   out).  Standard input is read before the file of -o is opened, 242-252, the others
   after that; writing does not fail. *)
Definition filter_cmd (fs : files) (args : list bytes) : files * res (N * bytes) :=
  let (ev, ops) := getopt "ho:rsv" args in
  match filter_opts (mkFO None false false false) ev with
  | None => (fs, Ok (1, []))
  | Some o =>
      match (match ops with [] => read_file (List.length stdin) bufsiz prefix id_size stdin | _ => Ok (Some []) end) with
      | Ok None => (fs, Ok (1, []))
      | Ok (Some l0) =>
          match open_out fs (fo_o o) with
          | None => (fs, Ok (1, []))
          | Some fs1 =>
              match read_args fs1 false ops with
              | Ok None => (fs1, Ok (1, []))
              | Ok (Some l) =>
                  match filter_rest qsort (fo_r o) (fo_s o) (fo_v o) hdr_id st (l0 ++ l) with
                  | Ok out => match fo_o o with None => (fs1, Ok (0, out)) | Some f => (put fs1 f out, Ok (0, [])) end
                  | Abort => (fs1, Abort) | UB => (fs1, UB) | Fuel => (fs1, Fuel)
                  end
              | Abort => (fs1, Abort) | UB => (fs1, UB) | Fuel => (fs1, Fuel)
              end
          end
      | Abort => (fs, Abort) | UB => (fs, UB) | Fuel => (fs, Fuel)
      end
  end.
End Fcmd.
