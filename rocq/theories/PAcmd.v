(* Property theorems C63: the command lines of audit, reindex and rebuild.  Statements
   only. *)
From Coq Require Import String Permutation.
From Verif Require Import RebuildModel RebuildSpec RebuildToy RebuildRuns.
From Verif Require Import Base IndexModel IndexSpec HeaderModel HeaderSpec InflateSpec GzipModel ProgModel StoreModel StoreSpec StoreSysModel StoreSys
  StoreToy StoreRuns SiloNameModel SiloNameSpec ReindexModel ReindexSpec ReindexRuns AuditModel AuditSpec AuditRuns CmdModel CmdSpec AcmdModel AcmdSpec AcmdMain AcmdRuns.
Open Scope string_scope.
Open Scope list_scope.
Open Scope N_scope.

(* C63 in full: audit, reindex and rebuild do their work on the silos named, or on all silos of
   the archive if none is named; options are taken or refused as the usage texts say; and
   the exit status tells whether everything was in order and every silo was seen.  Refuted
   in six ways below; partial where C40 and C50 are. *)

(* audit of files: the report is about just these, as in C40_named_partial, and metadata
   identifiers are left alone if and only if -i says so. *)
Theorem C63_audit_partial : forall C L dirname b fuel D os ops args fs out st,
  written [o_i] [o_h] os ops args -> ~ In (o_h, None) os -> ops <> [] ->
  Forall2 (fun fn f => d_file D fn = Some f /\ is_bytes f) ops fs -> audit_cmd C L dirname b fuel D args = Ok (Some (out, st)) ->
  exists ign vs groups rest plain tl, (ign = true <-> In ignore_word (CmdSpec.given o_i os)) /\
  out = flat_map v_out vs ++ flat_map snd groups ++ tl /\
  map v_file vs = fs /\ Forall (told_silo C L ign) vs /\
  parted (map snd (flat_map v_recs vs)) (flat_map fst groups ++ rest) plain /\
  Forall (fun g => told C L (fst g) (snd g)) groups /\ (rest = [] -> tl = []) /\ (rest <> [] -> exists x, In x tl /\ complaint x).
Proof. exact audit_files. Qed.
Print Assumptions C63_audit_partial.
Example C63_audit_case : written [o_i] [o_h] [(o_i, Some ignore_word)] [str "a"; str "b"] [str "-i"; ignore_word; str "a"; str "b"] /\
  ~ In (o_h, None) [(o_i, Some ignore_word)] /\ In ignore_word (CmdSpec.given o_i [(o_i, Some ignore_word)]).
Proof. exact audit_files_case. Qed.

(* audit of the archive: the report of C40_clean_partial, and status 0. *)
Theorem C63_audit_archive_partial : forall C L dirname b, conf_ok C -> zlib_ok L -> forall x D k k' os args ign, reach C L x ->
  (forall j p, In (j, p) (wo_procs x) -> exists a, p = Ret a) ->
  on_disk dirname b (wo_fs x) D k -> written [o_i] [o_h] os [] args -> ~ In (o_h, None) os -> (ign = true <-> In ignore_word (CmdSpec.given o_i os)) ->
  once C L (wo_fs x) -> in_order C L (wo_fs x) -> gapless (wo_fs x) k' -> meta_named C L ign (wo_fs x) ->
  N.of_nat (List.length (f_idx (wo_fs x))) < 2 ^ 31 - 2 ->
  exists ids, NoDup ids /\ (forall id, In id ids <-> exists n o w e, in_archive C L (wo_fs x) n o w e /\ segment_of C w id 1) /\
  exists m, forall fuel, (m <= fuel)%nat -> audit_cmd C L dirname b fuel D args =
    Ok (Some (flat_map (fun n => [LSilo (Z.of_N n); LTotal (len (entries (wo_fs x) n)) 0]) (AuditSpec.upto k') ++ map LObject ids, 0)).
Proof. exact audit_line. Qed.
Print Assumptions C63_audit_archive_partial.
Example C63_audit_archive_case : exists x D, reach K toy x /\
  wo_procs x = [(JStore hello, Ret (Some hello_id)); (JStore big, Ret (Some big_id)); (JStore about_big, Ret (Some about_id))] /\
  on_disk (str "s/") default_basename (wo_fs x) D 100 /\
  once K toy (wo_fs x) /\ in_order K toy (wo_fs x) /\ gapless (wo_fs x) 3 /\ meta_named K toy false (wo_fs x) /\ len (f_idx (wo_fs x)) = 7 /\
  written [o_i] [o_h] [] [] [str "--"].
Proof. exact audit_disk. Qed.

Theorem C63_audit_refused : forall C L dirname b fuel D args,
  (forall os ops, written [o_i] [o_h] os ops args -> In (o_h, None) os) -> audit_cmd C L dirname b fuel D args = Ok None.
Proof. exact audit_refused. Qed.
Print Assumptions C63_audit_refused.
Example C63_audit_refused_case : forall os ops, written [o_i] [o_h] os ops [str "-x"] -> In (o_h, None) os.
Proof. exact audit_refused_case. Qed.

(* The exit status says nothing: it is 0 also if the report has a record which does not
   agree with what it says of itself. *)
Theorem C63_audit_status_refuted : exists x D out, reach K toy x /\ on_disk (str "s/") default_basename (wo_fs x) D 100 /\
  audit_cmd K toy (str "s/") default_basename 20 D [] = Ok (Some (out, 0)) /\ totals out = [(2, 1)].
Proof. exact status_refuted. Qed.
Print Assumptions C63_audit_status_refuted.

(* A file which cannot be opened ends the audit, with status 0, and nothing is said of it
   or of those named behind it. *)
Theorem C63_audit_missing_refuted : exists x D out, reach K toy x /\ on_disk (str "s/") default_basename (wo_fs x) D 100 /\
  audit_cmd K toy (str "s/") default_basename 20 D [] = Ok (Some (out, 0)) /\ totals out = [(2, 1)] /\
  audit_cmd K toy (str "s/") default_basename 20 D [str "s/1"; here 0] = Ok (Some ([], 0)).
Proof. exact missing_refuted. Qed.
Print Assumptions C63_audit_missing_refuted.
Theorem C63_audit_stops_refuted : forall C L dirname b fuel D os ops1 fn ops2 args args1,
  written [o_i] [o_h] os (ops1 ++ fn :: ops2) args -> written [o_i] [o_h] os ops1 args1 ->
  ~ In (o_h, None) os -> ops1 <> [] -> d_file D fn = None -> audit_cmd C L dirname b fuel D args = audit_cmd C L dirname b fuel D args1.
Proof. exact audit_stops. Qed.
Print Assumptions C63_audit_stops_refuted.
Example C63_audit_stops_case : written [o_i] [o_h] [] ([str "a"] ++ str "b" :: [str "c"]) [str "a"; str "b"; str "c"] /\ written [o_i] [o_h] [] [str "a"] [str "a"].
Proof. split; apply audit_getopt; reflexivity. Qed.

(* A wrong value of -i is not refused, but has no effect. *)
Theorem C63_audit_option_refuted : forall C L dirname b fuel D,
  audit_cmd C L dirname b fuel D [str "-i"; str "ignore-metadata-record-ids"] = audit_cmd C L dirname b fuel D [].
Proof. exact option_refuted. Qed.
Print Assumptions C63_audit_option_refuted.

(* reindex of the archive on disk brings back the whole index, and its status is 0. *)
Theorem C63_reindex : forall C L dirname b, conf_ok C -> zlib_ok L -> forall x D k es sort_size ops0 args,
  reach C L x -> (forall j p, In (j, p) (wo_procs x) -> exists a, p = Ret a) ->
  on_disk dirname b (wo_fs x) D k -> written [] [o_h] [] [] args ->
  once C L (wo_fs x) -> ok_conf (c_idsize C) sort_size -> Forall ok_op ops0 -> incl (ideal_ops ops0) (f_idx (wo_fs x)) ->
  N.of_nat (List.length (f_idx (wo_fs x))) + len (ideal_ops ops0) < 2 ^ 38 ->
  exists ops, (forall fuel, (N.to_nat k < fuel)%nat -> reindex_cmd C dirname b fuel D es args = Ok (Some (ops, [], 0))) /\
    exists st es', run_ops (c_idsize C) sort_size ifs_empty (ops0 ++ ops) = Ok st /\
      IndexModel.lookup st None = Ok es' /\ (forall e, In e es' <-> In e (f_idx (wo_fs x))).
Proof. exact reindex_line. Qed.
Print Assumptions C63_reindex.
Example C63_reindex_case : exists x D, reach K toy x /\
  wo_procs x = [(JStore hello, Ret (Some hello_id)); (JStore big, Ret (Some big_id)); (JStore about_big, Ret (Some about_id))] /\
  on_disk (str "s/") default_basename (wo_fs x) D 100 /\ once K toy (wo_fs x) /\ len (f_idx (wo_fs x)) = 7 /\ written [] [o_h] [] [] [str "--"].
Proof. exact reindex_disk. Qed.

(* reindex of files: those which cannot be opened are passed over, the others taken as by
   C48_named, and the status is 0 if and only if all could be opened. *)
Theorem C63_reindex_files : forall C dirname b fuel D es ops args silos, written [] [o_h] [] ops args -> ops <> [] ->
  Forall2 (fun f x => named_after (fst f) (fst x) /\ fst x < 2 ^ 64 /\ snd f = snd x)
    (flat_map (fun fn => match d_file D fn with Some f => [(fn, f)] | None => [] end) ops) silos ->
  forall o rest, main_reindex C es silos = Ok (o, rest) ->
  exists st, reindex_cmd C dirname b fuel D es args = Ok (Some (o, rest, st)) /\ (st = 0 <-> forall fn, In fn ops -> d_file D fn <> None).
Proof. exact reindex_files. Qed.
Print Assumptions C63_reindex_files.
Example C63_reindex_files_case : written [] [o_h] [] [str "s/0/00000007.warc.gz"; str "x"] [str "s/0/00000007.warc.gz"; str "x"] /\
  Forall2 (fun f x => named_after (fst f) (fst x) /\ fst x < 2 ^ 64 /\ snd f = snd x)
    (flat_map (fun fn => match d_file two_files fn with Some f => [(fn, f)] | None => [] end) [str "s/0/00000007.warc.gz"; str "x"]) [(7, [])] /\
  (forall es, main_reindex K es [(7, [])] = Ok ([OResort], [])) /\ d_file two_files (str "x") = None.
Proof. exact reindex_files_case. Qed.

Theorem C63_reindex_refused : forall C dirname b fuel D es args, (forall ops, ~ written [] [o_h] [] ops args) -> reindex_cmd C dirname b fuel D es args = Ok None.
Proof. exact reindex_refused. Qed.
Print Assumptions C63_reindex_refused.
Example C63_refused_case : forall ops, ~ written [] [o_h] [] ops [str "-h"; str "a"].
Proof. exact refused_case. Qed.

(* A silo of the archive which cannot be opened ends reindex with status 0: here nothing
   of the three silos is indexed. *)
Theorem C63_reindex_silent_refuted : exists x D, reach K toy x /\ on_disk (str "s/") default_basename (wo_fs x) D 100 /\ len (f_idx (wo_fs x)) = 7 /\ f_silo (wo_fs x) 2 <> None /\
  forall es fuel, reindex_cmd K (str "s/") default_basename (S fuel) (shut D (here 0)) es [] = Ok (Some ([], [], 0)).
Proof. exact silent_refuted. Qed.
Print Assumptions C63_reindex_silent_refuted.

(* rebuild of files: for each which can be opened there is the new one of
   C50_rebuild_partial, under its name with an underscore behind it; no other file is
   changed. *)
Theorem C63_rebuild_partial : forall C L dirname b bufsiz spare split, clean_prefix (c_prefix C) -> is_bytes (c_prefix C) -> 16 <= c_idsize C <= 64 ->
  zlib_ok L -> zlib_roomy L -> bufsiz <= 65536 -> RebuildSpec.delivers split -> forall fuel D ops args, written [] [o_h] [] ops args -> ops <> [] -> apart ops ->
  Forall (fun fn => good_file (c_prefix C) bufsiz spare (d_file D fn)) ops ->
  exists D', rebuild_cmd C L dirname b bufsiz spare split fuel D args = Ok (Some (D', 0)) /\
    (forall p, (forall fn, In fn ops -> d_file D fn <> None -> p <> fn ++ str "_") -> d_file D' p = d_file D p) /\
    (forall fn f, In fn ops -> d_file D fn = Some f -> exists o, d_file D' (fn ++ str "_") = Some o /\
       renewed (c_prefix C) bufsiz spare (c_idsize C) (z_sha L) (Some f) (Some o)).
Proof. exact rebuild_line. Qed.
Print Assumptions C63_rebuild_partial.
Example C63_rebuild_case : written [] [o_h] [] [str "a"; str "b"] [str "a"; str "b"] /\ apart [str "a"; str "b"] /\
  Forall (fun fn => good_file (c_prefix RebuildRuns.K) 1024 false (d_file silo1_disk fn)) [str "a"; str "b"] /\
  d_file silo1_disk (str "a") = Some silo1 /\ d_file silo1_disk (str "b") = None.
Proof. exact rebuild_line_case. Qed.

(* rebuild of the archive: the same for each silo. *)
Theorem C63_rebuild_archive_partial : forall C L dirname b bufsiz spare split, clean_prefix (c_prefix C) -> is_bytes (c_prefix C) -> 16 <= c_idsize C <= 64 ->
  zlib_ok L -> zlib_roomy L -> bufsiz <= 65536 -> RebuildSpec.delivers split -> forall fuel s D k args,
  written [] [o_h] [] [] args -> on_disk dirname b s D k -> (N.to_nat k < fuel)%nat -> ok_base b ->
  (forall n f w, f_silo s n = Some (f, w) -> good_file (c_prefix C) bufsiz spare (Some f)) ->
  exists D', rebuild_cmd C L dirname b bufsiz spare split fuel D args = Ok (Some (D', 0)) /\
    (forall p, (forall n, f_silo s n <> None -> p <> Silo_Filename dirname b n false ++ str "_") -> d_file D' p = d_file D p) /\
    (forall n f w, f_silo s n = Some (f, w) -> exists o, d_file D' (Silo_Filename dirname b n false ++ str "_") = Some o /\
       renewed (c_prefix C) bufsiz spare (c_idsize C) (z_sha L) (Some f) (Some o)).
Proof. exact rebuild_all. Qed.
Print Assumptions C63_rebuild_archive_partial.
Example C63_rebuild_archive_case : exists s, on_disk (str "s/") default_basename s (disk_of s) 100 /\ f_silo s 0 <> None /\ ok_base default_basename /\
  forall n f w, f_silo s n = Some (f, w) -> good_file (c_prefix RebuildRuns.K) 1024 false (Some f).
Proof. exact rebuild_all_case. Qed.

Theorem C63_rebuild_refused : forall C L dirname b bufsiz spare split fuel D args,
  (forall ops, ~ written [] [o_h] [] ops args) -> rebuild_cmd C L dirname b bufsiz spare split fuel D args = Ok None.
Proof. exact rebuild_refused. Qed.
Print Assumptions C63_rebuild_refused.

(* A file which cannot be opened does not change the status. *)
Theorem C63_rebuild_missing_refuted : forall C L dirname b bufsiz spare split fuel D fn args, written [] [o_h] [] [fn] args -> d_file D fn = None ->
  rebuild_cmd C L dirname b bufsiz spare split fuel D args = Ok (Some (D, 0)).
Proof. exact rebuild_missing. Qed.
Print Assumptions C63_rebuild_missing_refuted.
Example C63_rebuild_missing_case : written [] [o_h] [] [str "b"] [str "b"] /\ d_file silo1_disk (str "b") = None.
Proof. split; [apply OthMain.hk_getopt; reflexivity|reflexivity]. Qed.
