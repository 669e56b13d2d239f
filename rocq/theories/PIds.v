(* Property theorems C52 and C53: what dumpindex and byid list.  Statements only. *)
From Coq Require Import String.
From Coq Require Import Sorting.Sorted.
From Verif Require Import Base IndexModel IndexSpec IndexSysModel IndexSysSpec HeaderModel HeaderSpec InflateSpec GzipModel GzipSpec
  ProgModel StoreModel StoreSpec StoreSysModel StoreToy StoreToyOk StoreRuns StoreEnd IdsModel IdsSpec IdsMain IdsRuns.
Open Scope string_scope.
Open Scope list_scope.
Open Scope N_scope.

(* ------------------------------------------------------------------ *)
(* dumpindex *)

(* Lines can be read back in one way only. *)
Theorem C52_unique : forall es1 ls1 es2 ls2, Forall2 shows es1 ls1 -> Forall2 shows es2 ls2 ->
  List.concat ls1 = List.concat ls2 -> es1 = es2 /\ ls1 = ls2.
Proof. exact dump_unique. Qed.
Print Assumptions C52_unique.
Example C52_unique_case : Forall2 shows [dump_ex] [dump_ex_line].
Proof. exact dump_ex_shows. Qed.

(* C52 in full: dumpindex prints a line for each entry which was put into the index and
   which an argument asks for, and for no other; with -t only those of records of that
   type.  This is false, see C05_refuted, C07_refuted, C52_segmented_refuted and
   C52_prefix_refuted.

   Proved: for all histories of the index, for hex arguments to which the lookup is
   faithful (as in C07_prefix_partial); with -t those of which this is the only flag. *)
Theorem C52_dump_partial : forall id_size sort_size evs t args,
  ok_conf id_size sort_size -> Forall ok_ev evs -> len (ideal_evs evs) < 2 ^ 38 -> known_word t -> Forall hexstr args ->
  exists y, sys_run id_size sort_size (mkSys ifs_empty []) evs = Ok y /\
    ((forall k, In k args -> start_clear (y_fs y) k /\ bucket_used (y_fs y) k) ->
     exists ess ls, main_dumpindex (y_fs y) t args = Ok (Some (List.concat ls)) /\ Forall2 shows (List.concat ess) ls /\
       Forall2 (fun q es => forall e, In e es <-> In e (ideal_evs evs) /\ asked q e /\ word_flag t e) (asks args) ess).
Proof. exact dump_hist. Qed.
Print Assumptions C52_dump_partial.
Example C52_dump_case : Forall ok_ev dump_evs /\ exists y, sys_run 32 4096 (mkSys ifs_empty []) dump_evs = Ok y /\
  (forall k, In k [str "f"] -> start_clear (y_fs y) k /\ bucket_used (y_fs y) k) /\
  main_dumpindex (y_fs y) (Some (str "resource")) [str "f"] = Ok (Some dump_ex_line).
Proof. exact dump_hist_case. Qed.

(* Once all commands have come to their end, and before the first housekeeping: exactly
   one line for each record of the archive which the argument asks for. *)
Theorem C52_archive : forall C L, conf_ok C -> zlib_ok L -> forall x id_size sort_size, ok_conf id_size sort_size ->
  reach C L x -> (forall j p, In (j, p) (wo_procs x) -> exists a, p = Ret a) ->
  exists ops st, Forall ok_op ops /\ Forall (fun o => o <> OResort) ops /\ ideal_ops ops = f_idx (wo_fs x) /\
    run_ops id_size sort_size ifs_empty ops = Ok st /\
    forall t args, known_word t -> Forall hexstr args -> exists ess ls, main_dumpindex st t args = Ok (Some (List.concat ls)) /\ Forall2 shows (List.concat ess) ls /\
      Forall2 (fun q es => NoDup es /\ forall e, In e es <-> (exists n o w, in_archive C L (wo_fs x) n o w e) /\ asked q e /\ word_flag t e) (asks args) ess.
Proof. exact dump_archive. Qed.
Print Assumptions C52_archive.
Example C52_archive_case : exists x, reach K toy x /\ (forall j p, In (j, p) (wo_procs x) -> exists a, p = Ret a) /\ len (f_idx (wo_fs x)) = 7.
Proof. exact dump_archive_case. Qed.

(* After housekeeping the lines are in the order of the identifiers. *)
Theorem C52_sorted : forall id_size sort_size ops t, ok_conf id_size sort_size -> Forall ok_op ops -> len (ideal_ops ops) < 2 ^ 38 -> known_word t ->
  exists st st' es ls, run_ops id_size sort_size ifs_empty ops = Ok st /\ IDX_Resort sort_size st = Ok st' /\
    main_dumpindex st' t [] = Ok (Some (List.concat ls)) /\ Forall2 shows es ls /\ StronglySorted key_le es /\
    forall e, In e es <-> In e (ideal_ops ops) /\ word_flag t e.
Proof. exact dump_sorted. Qed.
Print Assumptions C52_sorted.
Example C52_sorted_case : Forall ok_op dump_ops /\ known_word (Some (str "metadata")) /\ len (ideal_ops dump_ops) = 3.
Proof. exact dump_sorted_case. Qed.

(* Any other word for -t: nothing is printed but the usage. *)
Theorem C52_usage : forall st t args, ~ known_word t -> main_dumpindex st t args = Ok None.
Proof. exact dump_usage. Qed.
Print Assumptions C52_usage.
Example C52_usage_case : ~ known_word (Some (str "Resource")).
Proof. intros [H|[H|[H|[]]]]; discriminate H. Qed.

(* An object stored in segments is shown, but not by -t resource. *)
Theorem C52_segmented_refuted : exists x, reach K toy x /\ wo_procs x = [(JStore big, Ret (Some (c_prefix K ++ big_dig)))] /\ r_meta big = false /\
  exists ops st l, Forall ok_op ops /\ ideal_ops ops = f_idx (wo_fs x) /\ run_ops 32 4096 ifs_empty ops = Ok st /\
    main_dumpindex st None [big_dig] = Ok (Some l) /\ l <> [] /\
    main_dumpindex st (Some (str "resource")) [big_dig] = Ok (Some []).
Proof. exact segmented_hidden. Qed.
Print Assumptions C52_segmented_refuted.

(* An identifier as store prints it makes dumpindex abort; only the digits are taken. *)
Theorem C52_prefix_refuted : exists st l, run_ops 32 4096 ifs_empty one_ops = Ok st /\ main_dumpindex st None [hello_dig] = Ok (Some l) /\
  good_id (c_prefix K) 32 hello_id hello_dig /\
  l = str "39204683110a6ab20eef50ca 0x00000004        0          317 00000000" ++ [10] /\ main_dumpindex st None [hello_id] = Abort.
Proof. exact prefix_aborts. Qed.
Print Assumptions C52_prefix_refuted.
(* So does every argument which is not made of hex digits. *)
Theorem C52_abort : forall st t k rest, known_word t -> ~ hexstr k -> main_dumpindex st t (k :: rest) = Abort.
Proof. exact dump_abort. Qed.
Print Assumptions C52_abort.
Example C52_abort_case : ~ hexstr (str "3920g").
Proof. exact abort_case. Qed.

(* ------------------------------------------------------------------ *)
(* byid *)

(* C53 in full: byid prints, for each argument in turn, the identifier and the type of
   each record of the archive whose identifier begins with the digits, each once; and
   its status is their number.  This is false, see C53_long_refuted (more digits than
   the index holds) and C53_busy_refuted (while an object is being stored).

   Proved: when all commands have come to their end, with up to 24 digits per argument;
   the status being at most 255.  Longer arguments are taken as their first 24 digits
   ([asked]). *)
Theorem C53_byid_partial : forall C L, conf_ok C -> zlib_ok L -> forall x ok args fs,
  reach C L x -> (forall j p, In (j, p) (wo_procs x) -> exists a, p = Ret a) ->
  Forall2 (frag (c_prefix C)) args fs -> len args * len (f_idx (wo_fs x)) <= 2 ^ 31 - 1 ->
  exists pss ls, Forall2 (its_records C L (wo_fs x)) fs pss /\ Forall2 id_line (map p_rec (List.concat pss)) ls /\
    run (main_byid C ok args) (wo_fs x) = (wo_fs x, inl (List.concat ls, if ok then 0 else N.min 255 (len (List.concat pss)))).
Proof. exact byid_end. Qed.
Print Assumptions C53_byid_partial.
(* What "asked for" means for the digits given. *)
Theorem C53_begin : forall C L s f ps, its_records C L s f ps -> len f <= 24 -> len f <= c_idsize C -> forall p, In p ps <->
  in_archive C L s (p_silo p) (p_off p) (p_rec p) (p_ent p) /\ begins f (p_rec p).
Proof. exact its_begin. Qed.
Print Assumptions C53_begin.
Example C53_byid_case : exists x, reach K toy x /\ (forall j p, In (j, p) (wo_procs x) -> exists a, p = Ret a) /\
  Forall2 (frag (c_prefix K)) [hello_id; str "8"; []] [hello_dig; str "8"; []] /\ len [hello_id; str "8"; []] * len (f_idx (wo_fs x)) = 21 /\
  In (JStore hello, Ret (Some hello_id)) (wo_procs x) /\ no_frag (c_prefix K) (str "39x").
Proof. exact byid_case. Qed.

(* It stops at an argument which is neither digits nor prefix and digits, and says so. *)
Theorem C53_stop : forall C L, conf_ok C -> zlib_ok L -> forall x ok args fs bad rest,
  reach C L x -> (forall j p, In (j, p) (wo_procs x) -> exists a, p = Ret a) ->
  Forall2 (frag (c_prefix C)) args fs -> len args * len (f_idx (wo_fs x)) <= 2 ^ 31 - 1 -> no_frag (c_prefix C) bad ->
  exists pss ls, Forall2 (its_records C L (wo_fs x)) fs pss /\ Forall2 id_line (map p_rec (List.concat pss)) ls /\
    run (main_byid C ok (args ++ bad :: rest)) (wo_fs x) = (wo_fs x, inl (List.concat ls, 1)).
Proof. exact byid_stop. Qed.
Print Assumptions C53_stop.

(* The identifier printed by store is listed, as resource or metadata. *)
Theorem C53_stored : forall C L, conf_ok C -> zlib_ok L -> forall x r b arg,
  reach C L x -> (forall j p, In (j, p) (wo_procs x) -> exists a, p = Ret a) ->
  In (JStore r, Ret (Some b)) (wo_procs x) -> len (f_idx (wo_fs x)) <= 2 ^ 31 - 1 ->
  (lower arg = lower b \/ lower (c_prefix C ++ arg) = lower b) ->
  exists out n l w, run (main_byid C false [arg]) (wo_fs x) = (wo_fs x, inl (out, n)) /\ 0 < n /\
    (exists u v, out = u ++ l ++ v) /\ id_line w l /\ lower (c_prefix C ++ h_id (wr_hdr w)) = lower b /\
    (has (wr_hdr w) "WARC-Type" (str "resource") \/ has (wr_hdr w) "WARC-Type" (str "metadata")).
Proof. exact byid_stored. Qed.
Print Assumptions C53_stored.

(* A complete identifier which is not in the archive is answered with the line of
   another object, if the first 24 digits are the same. *)
Theorem C53_long_refuted : exists x, reach K toy x /\ wo_procs x = [(JStore hello, Ret (Some hello_id))] /\
  len other_dig = c_idsize K /\ hexstr other_dig /\ other_dig <> hello_dig /\
  snd (run (main_byid K false [other_dig]) (wo_fs x)) = inl (str "id " ++ hello_dig ++ str " wt resource" ++ [10], 1).
Proof. exact long_listed. Qed.
Print Assumptions C53_long_refuted.

(* While an object is being stored its entry can be in the index before the record is
   in place; byid aborts. *)
Theorem C53_busy_refuted : exists x p, reach K toy x /\ wo_procs x = [(JStore hello, p)] /\ (forall d, p <> Die d) /\
  snd (run (main_byid K false [hello_id]) (wo_fs x)) = inr DAbort.
Proof. exact busy_aborts. Qed.
Print Assumptions C53_busy_refuted.
