(* Model of the commands which list identifiers: /repo/main_dumpindex.c on the
   files of the index, /repo/main_byid.c on the archive. *)
From Coq Require Import String.
From Verif Require Import Base IndexModel HeaderModel GzipModel ProgModel StoreModel.
Open Scope string_scope.
Open Scope list_scope.
Open Scope N_scope.

(* ------------------------------------------------------------------ *)
(* main_dumpindex.c                                                     *)

(* printf("%ku"): filled up with blanks on the left *)
Definition blanks (k : nat) (s : bytes) : bytes := repeat 32 (k - List.length s) ++ s.

(* main_dumpindex.c:63: "%s 0x%08x %8u %12jd %s\n".  The offset is not negative. *)
Definition dump_line (e : ixent) : bytes :=
  e_key e ++ str " 0x" ++ hexpad 8 (e_flags e) ++ [32] ++ blanks 8 (dec (e_silo e)) ++ [32] ++
  blanks 12 (dec (e_off e)) ++ [32] ++ e_cont e ++ [10].

(* dumpindex_iter, main_dumpindex.c:53-65.  The state is what has been printed. *)
Definition dumpindex_iter (u : N) : idx_cb bytes := fun out e =>
  (0%Z, if negb (u =? 0) && negb (e_flags e =? u) then out else out ++ dump_line e).

(* The argument of the last -t, main_dumpindex.c:81-91; None is usage and exit(1). *)
Definition dump_type (t : option bytes) : option N :=
  match t with
  | None => Some 0
  | Some t =>
      if bytes_eqb t (str "metadata") then Some IDX_F_METADATA else
      if bytes_eqb t (str "resource") then Some IDX_F_RESOURCE else
      if bytes_eqb t (str "warcinfo") then Some IDX_F_WARCINFO else None
  end.

(* main_dumpindex.c:103-104 *)
Fixpoint dump_args (u : N) (st : ifs) (args : list bytes) (out : bytes) : res bytes :=
  match args with
  | [] => Ok out
  | k :: r => let* (_, out) := IDX_Iter (dumpindex_iter u) st (Some k) out in dump_args u st r out
  end.

(* main_dumpindex, main_dumpindex.c:67-106: everything printed; None is exit(1). *)
Definition main_dumpindex (st : ifs) (t : option bytes) (args : list bytes) : res (option bytes) :=
  match dump_type t with
  | None => Ok None
  | Some u =>
      let* out := match args with
                  | [] => let* (_, out) := IDX_Iter (dumpindex_iter u) st None [] in Ok out
                  | _ => dump_args u st args []
                  end in
      Ok (Some out)
  end.

(* ------------------------------------------------------------------ *)
(* main_byid.c                                                          *)

Section ById.
Variable C : conf.

(* byid_iter, main_byid.c:60-88: the line printed.  printf("%s") of NULL counts as
   undefined. *)
Definition byid_iter (e : ixent) : prog bytes :=
  let! f := sys (CReadSilo (e_silo e)) in
  match f with
  | None => Die DAbort
  | Some s =>
      let! h := lift (Rsilo_ReadHeader C s (e_off e)) in
      match h with
      | None => Die DAbort
      | Some (hdr, _, _) =>
          match Header_Get hdr (str "WARC-Type") with
          | None => Die DUB
          | Some t => Ret (str "id " ++ Header_Get_Id hdr ++ str " wt " ++ t ++ [10])
          end
      end
  end.

(* IDX_Iter with that callback; the second number is privs->retval, an int *)
Fixpoint byid_loop (es : list ixent) (out : bytes) (n : N) : prog (bytes * N) :=
  match es with
  | [] => Ret (out, n)
  | e :: r =>
      let! l := byid_iter e in
      if 2 ^ 31 - 1 <=? n then Die DUB else byid_loop r (out ++ l) (n + 1)
  end.

(* main_byid.c:118-128; None is exit(1), with what has been printed until then *)
Fixpoint byid_args (args : list bytes) (out : bytes) (n : N) : prog (bytes * option N) :=
  match args with
  | [] => Ret (out, Some n)
  | a :: r =>
      let nid := strip_prefix (c_prefix C) a in
      if negb (forallb is_hex nid) then Ret (out, None) else
      let! es := sys (CIdxIter nid) in
      let! (out, n) := byid_loop es out n in
      byid_args r out n
  end.

(* main_byid, main_byid.c:90-132: what is printed and the exit status.  [ok] is -e. *)
Definition main_byid (ok : bool) (args : list bytes) : prog (bytes * N) :=
  let! (out, n) := byid_args args [] 0 in
  match n with
  | None => Ret (out, 1)
  | Some n => Ret (out, if ok then 0 else if n <? 256 then n else 255)
  end.
End ById.
