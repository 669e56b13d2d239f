(* What reindex makes of an archive (main_reindex.c). *)
From Coq Require Import String Permutation.
From Verif Require Import Base IndexModel IndexSpec HeaderModel GzipModel ProgModel StoreModel StoreSpec StoreSysModel
  StoreToy StoreToyOk StoreRuns ReindexModel ReindexSpec ReindexMain ReindexRuns.
Open Scope string_scope.
Open Scope list_scope.
Open Scope N_scope.

(* C29: when all commands which wrote to the archive have ended well, and no
   segment of an object is there twice, reindex given all silos in whatever order
   inserts, besides housekeeping, exactly the entries of the index once each, in
   some order; no segment is left over.  Afterwards the index files report exactly
   the entries of the index, whether they were empty before or had some of them. *)
Theorem C29_rebuild : forall C L, conf_ok C -> zlib_ok L -> forall x silos es sort_size ops0,
  reach C L x -> (forall j p, In (j, p) (wo_procs x) -> exists a, p = Ret a) ->
  once C L (wo_fs x) -> silos_of (wo_fs x) silos ->
  ok_conf (c_idsize C) sort_size -> Forall ok_op ops0 -> incl (ideal_ops ops0) (f_idx (wo_fs x)) ->
  N.of_nat (List.length (f_idx (wo_fs x))) + len (ideal_ops ops0) < 2 ^ 38 ->
  exists ops, main_reindex C es silos = Ok (ops, []) /\ Permutation (ideal_ops ops) (f_idx (wo_fs x)) /\
    exists st es', run_ops (c_idsize C) sort_size ifs_empty (ops0 ++ ops) = Ok st /\
      lookup st None = Ok es' /\ (forall e, In e es' <-> In e (f_idx (wo_fs x))).
Proof. exact (fun C L CO ZO x l es ss ops0 => reindex_ended C L CO ZO x l es ss ops0). Qed.
Print Assumptions C29_rebuild.
Example C29_rebuild_case : exists x, reach K toy x /\
  wo_procs x = [(JStore hello, Ret (Some hello_id)); (JStore big, Ret (Some big_id))] /\
  once K toy (wo_fs x) /\ silos_of (wo_fs x) (silos_in (wo_fs x)) /\ len (f_idx (wo_fs x)) = 6.
Proof. exact reindex_run. Qed.

(* The same for any archive in order and at rest, however it came about, if every
   segment in it is part of a complete object. *)
Theorem C29_settled : forall C L, conf_ok C -> forall s silos es,
  archive_ok C L s -> date_ok (f_clock s) -> (forall n, f_hold s n = None) -> whole C L s -> once C L s ->
  N.of_nat (List.length (f_idx s)) < 2 ^ 62 -> silos_of s silos ->
  exists ops, main_reindex C es silos = Ok (ops, []) /\ Permutation (ideal_ops ops) (f_idx s) /\ Forall ok_op ops.
Proof. exact (fun C L CO s l es A D => reindex_same C L CO s l es (conj A D)). Qed.
Print Assumptions C29_settled.
Example C29_settled_case : exists s, archive_ok K toy s /\ date_ok (f_clock s) /\ (forall n, f_hold s n = None) /\ whole K toy s /\ once K toy s /\
  silos_of s (silos_in s) /\ len (f_idx s) = 6.
Proof. exact settled_run. Qed.

(* If an object of three segments is stored twice at the same time, which is
   possible (C25_refuted_race), reindex fails. *)
Theorem C29_refuted_twice : exists C L x r b silos, conf_ok C /\ zlib_ok L /\ reach C L x /\
  wo_procs x = [(JStore r, Ret (Some b)); (JStore r, Ret (Some b))] /\ silos_of (wo_fs x) silos /\
  forall es, main_reindex C es silos = Abort.
Proof. exact refuted_twice_abort. Qed.
Print Assumptions C29_refuted_twice.

(* If an object is stored twice at the same time, split at different places,
   reindex ends well, but not all entries of the index come back. *)
Theorem C29_refuted_crossed : exists C L x r1 r2 b silos ops e, conf_ok C /\ zlib_ok L /\ reach C L x /\
  wo_procs x = [(JStore r1, Ret (Some b)); (JStore r2, Ret (Some b))] /\
  List.concat (r_data r1) = List.concat (r_data r2) /\ silos_of (wo_fs x) silos /\
  (forall es, main_reindex C es silos = Ok (ops, [])) /\ In e (f_idx (wo_fs x)) /\ ~ In e (ideal_ops ops).
Proof. exact refuted_crossed. Qed.
Print Assumptions C29_refuted_crossed.

(* C48: reindex given the silos as files, each named with a directory and with a
   name which begins with the number of the silo, does the same as reindex over the
   whole archive in that order; in particular all that C29_rebuild says. *)
Theorem C48_named : forall C es files silos,
  Forall2 (fun f x => named_after (fst f) (fst x) /\ fst x < 2 ^ 64 /\ snd f = snd x) files silos ->
  main_reindex_named C es files = main_reindex C es silos.
Proof. exact reindex_named. Qed.
Print Assumptions C48_named.
Example C48_named_case : exists x files silos, reach K toy x /\ (forall j p, In (j, p) (wo_procs x) -> exists a, p = Ret a) /\
  silos_of (wo_fs x) silos /\ Forall2 (fun f p => named_after (fst f) (fst p) /\ fst p < 2 ^ 64 /\ snd f = snd p) files silos /\ List.length files = 3%nat.
Proof. exact default_files. Qed.

(* A file in the current directory, named without a '/', makes reindex fail. *)
Theorem C48_refuted_plain : forall C es fn b r, ~ In 47 fn -> main_reindex_named C es ((fn, b) :: r) = Abort.
Proof. exact reindex_plain. Qed.
Print Assumptions C48_refuted_plain.
Example C48_refuted_plain_case : ~ In 47 (str "00000000.warc.gz").
Proof. cbn. intuition discriminate. Qed.

(* If silo.basename does not begin with the number, as in "silo%08u.warc.gz",
   reindex ends well, but loses entries and makes wrong ones. *)
Theorem C48_refuted_name : exists C L x silos name ops e e', conf_ok C /\ zlib_ok L /\ reach C L x /\
  (forall j p, In (j, p) (wo_procs x) -> exists a, p = Ret a) /\ once C L (wo_fs x) /\ silos_of (wo_fs x) silos /\
  (forall n, name n = str "/archive/0/0/silo" ++ repeat 48 (8 - List.length (dec n)) ++ dec n ++ str ".warc.gz") /\
  (forall es, main_reindex_named C es (map (fun p => (name (fst p), snd p)) silos) = Ok (ops, [])) /\
  In e (f_idx (wo_fs x)) /\ ~ In e (ideal_ops ops) /\ In e' (ideal_ops ops) /\ ~ In e' (f_idx (wo_fs x)).
Proof. exact refuted_names. Qed.
Print Assumptions C48_refuted_name.
