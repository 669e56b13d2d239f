(* Property theorems C30: the filter command.  Statements only. *)
From Coq Require Import String.
From Verif Require Import Base IndexModel IndexSpec IndexSysModel IndexSysSpec HeaderModel ProgModel StoreModel StoreSpec StoreSysModel
  StoreToy StoreRuns FilterModel FilterSpec FilterMain.
Open Scope string_scope.
Open Scope list_scope.
Open Scope N_scope.

(* C30 in full: filter prints exactly those lines whose identifier is not in the
   archive (with -r: those whose is; with -v: all, marked), in the order given.
   This is false (see C30_refuted_upper and the others below), so here identifiers have at least 24 digits and
   are given in lower case, and being in the archive means that the index lists
   something under the first 24 digits.  For any files (any number, any order,
   blank lines, prefixes, text behind the identifiers), any index history
   (inserts and housekeeping of any number of processes, crashes) and any sorting
   algorithm. *)
Theorem C30_filter_partial : forall qsort bufsiz prefix id_size sort_size evs (r_flag v_flag : bool) hdr_id gss,
  sorts qsort -> no_hex_prefix prefix id_size -> 24 <= id_size -> ok_conf id_size sort_size ->
  Forall ok_ev evs -> len (ideal_evs evs) < 2 ^ 38 ->
  Forall (Forall (good_given bufsiz prefix id_size)) gss -> Forall (Forall small_given) gss ->
  exists y there, sys_run id_size sort_size (mkSys ifs_empty []) evs = Ok y /\
    main_filter qsort bufsiz prefix id_size r_flag false v_flag hdr_id (map (flat_map text) gss) (y_fs y) =
      Ok (Some (flat_map (answer r_flag v_flag there) (List.concat gss))) /\
    forall p id t, In (Given p id t) (List.concat gss) -> (there id = true <-> listed (ideal_evs evs) id).
Proof. exact filter_hist. Qed.
Print Assumptions C30_filter_partial.
Example C30_case : Forall ok_ev some_evs /\ len (ideal_evs some_evs) = 4 /\ Forall (Forall (good_given 1024 pre 32)) some_given /\
  Forall (Forall small_given) some_given /\
  exists y, sys_run 32 4096 (mkSys ifs_empty []) some_evs = Ok y /\ f_sorted (y_fs y) <> None /\ f_app (y_fs y) <> None /\
    main_filter isort 1024 pre 32 false false false (fun _ _ => Abort) (map (flat_map text) some_given) (y_fs y) =
      Ok (Some (str "99999999999999999999999999999999" ++ [10])).
Proof. exact some_case. Qed.

(* A line which is not an identifier (too short, not hex digits), one which is
   too long and one which is cut off: nothing is printed, exit(1), whatever comes
   before and after. *)
Theorem C30_refuses : forall qsort bufsiz prefix id_size (r_flag s_flag v_flag : bool) hdr_id gss gs bad more st,
  16 <= id_size -> no_hex_prefix prefix id_size ->
  Forall (Forall (good_given bufsiz prefix id_size)) gss -> Forall (good_given bufsiz prefix id_size) gs ->
  refused bufsiz prefix id_size bad ->
  main_filter qsort bufsiz prefix id_size r_flag s_flag v_flag hdr_id
    (map (flat_map text) gss ++ (flat_map text gs ++ bad) :: more) st = Ok None.
Proof. exact filter_refuses. Qed.
Print Assumptions C30_refuses.
Example C30_refuses_case : refused 1024 pre 32 (str "http://x/abc" ++ [10] ++ str "more").
Proof. exact refused_case. Qed.

(* On an archive, when all commands have come to their end: an identifier is
   there iff a silo has a record with the same 24 digits; those a store has
   printed are there. *)
Theorem C30_archive_partial : forall C L, conf_ok C -> zlib_ok L -> forall x qsort bufsiz (r_flag v_flag : bool) hdr_id gss st l,
  reach C L x -> (forall j p, In (j, p) (wo_procs x) -> exists a, p = Ret a) ->
  sorts qsort -> no_hex_prefix (c_prefix C) (c_idsize C) -> 24 <= c_idsize C ->
  lookup st None = Ok l -> (forall e, In e l <-> In e (f_idx (wo_fs x))) ->
  Forall (Forall (good_given bufsiz (c_prefix C) (c_idsize C))) gss -> Forall (Forall small_given) gss ->
  exists there,
    main_filter qsort bufsiz (c_prefix C) (c_idsize C) r_flag false v_flag hdr_id (map (flat_map text) gss) st =
      Ok (Some (flat_map (answer r_flag v_flag there) (List.concat gss))) /\
    (forall p id t, In (Given p id t) (List.concat gss) ->
       (there id = true <-> exists n o w e, in_archive C L (wo_fs x) n o w e /\ pad 24 (h_id (wr_hdr w)) = firstn 24 id) /\
       (forall r b, In (JStore r, Ret (Some b)) (wo_procs x) -> lower b = lower (c_prefix C ++ id) -> there id = true)).
Proof. exact filter_archive. Qed.
Print Assumptions C30_archive_partial.

(* With -s, if no two records with the same 24 digits have different identifiers:
   an identifier is there iff a silo has a record with it. *)
Theorem C30_silos_partial : forall C L, conf_ok C -> zlib_ok L -> forall x qsort bufsiz (r_flag v_flag : bool) gss st l,
  reach C L x -> (forall j p, In (j, p) (wo_procs x) -> exists a, p = Ret a) ->
  sorts qsort -> no_hex_prefix (c_prefix C) (c_idsize C) -> 24 <= c_idsize C ->
  lookup st None = Ok l -> (forall e, In e l <-> In e (f_idx (wo_fs x))) ->
  (forall n1 o1 w1 e1 n2 o2 w2 e2, in_archive C L (wo_fs x) n1 o1 w1 e1 -> in_archive C L (wo_fs x) n2 o2 w2 e2 ->
     e_key e1 = e_key e2 -> lower (h_id (wr_hdr w1)) = lower (h_id (wr_hdr w2))) ->
  Forall (Forall (good_given bufsiz (c_prefix C) (c_idsize C))) gss -> Forall (Forall small_given) gss ->
  exists there,
    main_filter qsort bufsiz (c_prefix C) (c_idsize C) r_flag true v_flag (silo_hdr_id C (wo_fs x)) (map (flat_map text) gss) st =
      Ok (Some (flat_map (answer r_flag v_flag there) (List.concat gss))) /\
    (forall p id t, In (Given p id t) (List.concat gss) ->
       (there id = true <-> exists n o w e, in_archive C L (wo_fs x) n o w e /\ lower (h_id (wr_hdr w)) = id) /\
       (forall r b, In (JStore r, Ret (Some b)) (wo_procs x) -> lower b = lower (c_prefix C ++ id) -> there id = true)).
Proof. exact filter_silos. Qed.
Print Assumptions C30_silos_partial.
Example C30_world_case : exists x ix, reach K toy x /\ (forall j p, In (j, p) (wo_procs x) -> exists a, p = Ret a) /\
  24 <= c_idsize K /\ no_hex_prefix (c_prefix K) (c_idsize K) /\ lookup ix None = Ok (f_idx (wo_fs x)) /\
  apart K (wo_fs x) /\ len (f_idx (wo_fs x)) = 2 /\
  In (JStore hello, Ret (Some hello_id)) (wo_procs x) /\
  Forall (good_given 1024 (c_prefix K) (c_idsize K)) hello_given /\ Forall small_given hello_given.
Proof. exact world_case. Qed.

(* In upper case, an identifier which the index finds is reported missing. *)
Theorem C30_refuted_upper : exists qsort bufsiz prefix id_size sort_size evs y e g id, sorts qsort /\ no_hex_prefix prefix id_size /\
  24 <= id_size /\ ok_conf id_size sort_size /\ Forall ok_ev evs /\ sys_run id_size sort_size (mkSys ifs_empty []) evs = Ok y /\
  good_given bufsiz prefix id_size g /\ g = Given [] id [] /\ lookup (y_fs y) (Some id) = Ok [e] /\
  main_filter qsort bufsiz prefix id_size false false false (fun _ _ => Abort) [text g] (y_fs y) = Ok (Some (text g)).
Proof. exact upper_missing. Qed.
Print Assumptions C30_refuted_upper.

(* With id.size below 24 digits everything is reported missing. *)
Theorem C30_refuted_short : exists qsort bufsiz prefix id_size sort_size evs y e g id, sorts qsort /\ no_hex_prefix prefix id_size /\
  ok_conf id_size sort_size /\ Forall ok_ev evs /\ sys_run id_size sort_size (mkSys ifs_empty []) evs = Ok y /\
  good_given bufsiz prefix id_size g /\ g = Given [] id [] /\ small id /\ lookup (y_fs y) (Some id) = Ok [e] /\
  main_filter qsort bufsiz prefix id_size false false false (fun _ _ => Abort) [text g] (y_fs y) = Ok (Some (text g)).
Proof. exact short_missing. Qed.
Print Assumptions C30_refuted_short.

(* With the same 24 digits, without -s: reported as there (-r) although it is not. *)
Theorem C30_refuted_there : exists qsort bufsiz prefix id_size sort_size key flags silo off y g id, sorts qsort /\ no_hex_prefix prefix id_size /\
  24 <= id_size /\ ok_conf id_size sort_size /\ len key = id_size /\
  sys_run id_size sort_size (mkSys ifs_empty []) [EInsert key flags silo off None] = Ok y /\
  good_given bufsiz prefix id_size g /\ g = Given [] id [] /\ small id /\ small key /\ id <> key /\
  main_filter qsort bufsiz prefix id_size true false false (fun _ _ => Abort) [text g] (y_fs y) = Ok (Some (text g)).
Proof. exact clash_present. Qed.
Print Assumptions C30_refuted_there.

(* And with -s: reported missing although it is there. *)
Theorem C30_refuted_missing : exists qsort bufsiz prefix id_size sort_size k1 k2 flags silo o1 o2 y (hdr_id : N -> N -> res bytes) g more,
  sorts qsort /\ no_hex_prefix prefix id_size /\ 24 <= id_size /\ ok_conf id_size sort_size /\ small k1 /\ small k2 /\
  sys_run id_size sort_size (mkSys ifs_empty []) [EInsert k1 flags silo o1 None; EInsert k2 flags silo o2 None] = Ok y /\
  hdr_id silo o1 = Ok k1 /\ hdr_id silo o2 = Ok k2 /\
  good_given bufsiz prefix id_size g /\ g = Given [] k2 [] /\ good_given bufsiz prefix id_size more /\
  main_filter qsort bufsiz prefix id_size false true false hdr_id [text g ++ text more] (y_fs y) = Ok (Some (text g ++ text more)).
Proof. exact clash_missing. Qed.
Print Assumptions C30_refuted_missing.
