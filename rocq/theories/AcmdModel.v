(* The command lines of audit, reindex and rebuild, from the arguments and the files on
   disk to what is reported or written and the exit status.  In all of them args are the
   arguments behind argv[0]; usage texts and progress messages are left out. *)
From Coq Require Import String.
From Verif Require Import Base IndexModel IndexSpec HeaderModel ProgModel StoreModel SiloNameModel ReindexModel AuditModel RebuildModel CmdModel.
Open Scope string_scope.
Open Scope list_scope.
Open Scope N_scope.

(* What stat(2) and open(2) find under a name: whether there is nothing, whether there is
   a regular file, and the contents if it can be opened for reading *)
Record disk := mkDisk { d_noent : bytes -> bool; d_reg : bytes -> bool; d_file : bytes -> option bytes }.
Definition d_write (D : disk) (fn b : bytes) : disk :=
  mkDisk (fun p => if bytes_eqb p fn then false else d_noent D p)
         (fun p => if bytes_eqb p fn then true else d_reg D p)
         (fun p => if bytes_eqb p fn then Some b else d_file D p).

Section Acmd.
Variable C : conf.
Variable L : zlib.
Variable dirname : bytes.              (* aa->silo_dirname *)
Variable b : basename.                 (* aa->silo_basename *)

(* ------------------------------------------------------------------ *)
(* main_audit.c *)

(* the option loop, main_audit.c:402-418; None: exit(1) *)
Fixpoint audit_opts (ign : bool) (l : list optev) : option bool :=
  match l with
  | [] => Some ign
  | OOpt 105 (Some v) :: r =>
      if bytes_eqb v (str "ignore-metadata-record-id") then audit_opts true r
      else audit_opts ign r                                        (* usage only, 412 *)
  | _ => None
  end.

(* The files opened without arguments, main_audit.c:422-425 and rsilo.c:78-88 *)
Fixpoint opened_disk (fuel : nat) (D : disk) (i : N) : res (list (Z * bytes)) :=
  match fuel with
  | O => Fuel
  | S fuel =>
      match d_file D (Silo_Filename dirname b i false) with
      | None => Ok []
      | Some f => let* r := opened_disk fuel D (i + 1) in Ok ((Z.of_N i, f) :: r)
      end
  end.

(* main_audit, main_audit.c:392-442: the report and the exit status *)
Definition audit_cmd (fuel : nat) (D : disk) (args : list bytes) : res (option (list line * N)) :=
  let (ev, ops) := getopt "i:h" args in
  match audit_opts false ev with
  | None => Ok None
  | Some ign =>
      let* out :=
        match ops with
        | [] => let* files := opened_disk fuel D 0 in main_audit C L ign fuel files
        | _ => audit_named C L ign fuel (map (d_file D) ops)
        end in
      Ok (Some (out, 0))
  end.

(* ------------------------------------------------------------------ *)
(* main_reindex.c *)

(* How far silo_iter comes with a silo of the archive, main_reindex.c:219-221: the silos
   it has opened, and what it returns *)
Definition reindex_open (D : disk) (acc : list (N * bytes)) (p : bytes) (u : N) : list (N * bytes) * Z :=
  match d_file D p with
  | None => (acc, (-1)%Z)
  | Some f => (acc ++ [(u, f)], 0%Z)
  end.

(* main_reindex, main_reindex.c:275-311: the operations on the index, the segments left
   over and the exit status, where -1 is 255.  es as in main_reindex of ReindexModel.v. *)
Definition reindex_cmd (fuel : nat) (D : disk) (es : list ixent) (args : list bytes) : res (option (list iop * list seg * N)) :=
  let (ev, ops) := getopt "h" args in
  match ev, ops with
  | [], [] =>
      let* (silos, ret) := Silo_Iter (d_noent D) (d_reg D) (reindex_open D) fuel dirname b [] in
      let* (o, rest) := main_reindex C es silos in
      Ok (Some (o, rest, if (ret =? 0)%Z then 0 else 255))
  | [], _ =>
      let opened := flat_map (fun fn => match d_file D fn with Some f => [(fn, f)] | None => [] end) ops in
      let* (o, rest) := main_reindex_named C es opened in
      Ok (Some (o, rest, if forallb (fun fn => match d_file D fn with Some _ => true | None => false end) ops then 0 else 255))
  | _, _ => Ok None
  end.

(* ------------------------------------------------------------------ *)
(* main_rebuild.c *)
Section Rebuild.
Variable bufsiz : N.
Variable spare : bool.
Variable split : bytes -> list bytes.  (* as in RebuildModel.v *)

(* rebuild_silo_iter for one file after the other, main_rebuild.c:234-291 and 332-335:
   the disk afterwards *)
Fixpoint rebuild_seq (D : disk) (rb : rebuild L) (names : list bytes) : res disk :=
  match names with
  | [] => Ok D
  | fn :: r =>
      match d_file D fn with
      | None => rebuild_seq D rb r                                 (* a message only, 247-251 *)
      | Some f =>
          let* rb := rebuild_silo C L bufsiz spare split rb f in
          rebuild_seq (d_write D (fn ++ str "_") (b_out L rb)) rb r
      end
  end.

(* main_rebuild, main_rebuild.c:303-340: the disk afterwards and the exit status.  The
   new files are in the directories of the old ones, so which silos are visited can be
   told beforehand. *)
Definition rebuild_cmd (fuel : nat) (D : disk) (args : list bytes) : res (option (disk * N)) :=
  let (ev, ops) := getopt "h" args in
  match ev with
  | [] =>
      let* names :=
        match ops with
        | [] => let* (l, _) := Silo_Iter (d_noent D) (d_reg D) (fun acc p _ => (acc ++ [p], 0%Z)) fuel dirname b [] in Ok l
        | _ => Ok ops
        end in
      let* D' := rebuild_seq D (rb_new L) names in
      Ok (Some (D', 0))
  | _ => Ok None
  end.
End Rebuild.
End Acmd.
