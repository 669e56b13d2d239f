(* Property theorems C40: the audit command.  Statements only. *)
From Coq Require Import String Permutation.
From Verif Require Import Base IndexModel HeaderModel InflateSpec ProgModel StoreModel StoreSpec StoreSysModel StoreSys
  StoreToy StoreRuns ReindexSpec ReindexRuns AuditModel AuditSpec AuditProofs AuditMain AuditRuns.
Open Scope string_scope.
Open Scope list_scope.
Open Scope N_scope.

(* C40 in full: the audit comes to an end with a report on every archive, visits
   every silo, and reports an object good exactly if all its segments are there and
   every digest and length agrees.  This is false, see C40_refuted below.

   What is true of every report, of any archive, also of a damaged one: the silos
   visited are those from 0 up to the first number there is none for.  Each of them
   is a sequence of records; how many agree with what they say of themselves, how
   many do not, and which do not, is as reported.  The records in segments are
   grouped into objects, each named in the report, with nothing behind the name
   exactly if the object is complete and its length, digest and identifier are as
   they should be; if there are segments left over, there is a complaint. *)
Theorem C40_report_partial : forall C L ign fuel s out,
  (forall n b w, f_silo s n = Some (b, w) -> is_bytes b) ->
  audit_archive C L ign fuel s = Ok out -> exists k vs groups rest plain tl,
  (forall n, n < k -> f_silo s n <> None) /\ f_silo s k = None /\
  out = flat_map v_out vs ++ flat_map snd groups ++ tl /\
  map (fun v => (v_no v, v_file v)) vs = map (fun n => (Z.of_N n, content s n)) (upto k) /\ Forall (told_silo C L ign) vs /\
  parted (map snd (flat_map v_recs vs)) (flat_map fst groups ++ rest) plain /\
  Forall (fun g => told C L (fst g) (snd g)) groups /\ (rest = [] -> tl = []) /\ (rest <> [] -> exists x, In x tl /\ complaint x).
Proof. exact archive_found. Qed.
Print Assumptions C40_report_partial.
Example C40_report_case : exists x, reach K toy x /\ wo_procs x = [(JStore hello, Ret (Some hello_id)); (JStore (forced "one"), Ret (Some forced_id))] /\
  once K toy (wo_fs x) /\ in_order K toy (wo_fs x) /\ gapless (wo_fs x) 1 /\ meta_named K toy true (wo_fs x) /\
  (forall n b w, f_silo (wo_fs x) n = Some (b, w) -> is_bytes b) /\
  exists out, audit_archive K toy false 20 (wo_fs x) = Ok out /\ totals out = [(2, 1)].
Proof. exact forced_run. Qed.

(* The same of files named on the command line. *)
Theorem C40_named_partial : forall C L ign fuel files out, Forall (fun f => is_bytes (snd f)) files ->
  main_audit C L ign fuel files = Ok out -> exists vs groups rest plain tl,
  out = flat_map v_out vs ++ flat_map snd groups ++ tl /\
  map (fun v => (v_no v, v_file v)) vs = files /\ Forall (told_silo C L ign) vs /\
  parted (map snd (flat_map v_recs vs)) (flat_map fst groups ++ rest) plain /\
  Forall (fun g => told C L (fst g) (snd g)) groups /\ (rest = [] -> tl = []) /\ (rest <> [] -> exists x, In x tl /\ complaint x).
Proof. exact report_found. Qed.
Print Assumptions C40_named_partial.

(* If there is no complaint, nothing is wrong: all records agree, and those in
   segments are complete objects with nothing left over. *)
Theorem C40_sound : forall C L ign fuel files out, Forall (fun f => is_bytes (snd f)) files ->
  main_audit C L ign fuel files = Ok out -> no_complaint out -> exists rss objs plain,
  Forall2 (fun f rs => holds C (snd f) rs) files rss /\ Forall (agrees C L ign) (List.concat rss) /\
  parted (map snd (List.concat rss)) (List.concat objs) plain /\ Forall (object C L) objs.
Proof. exact sound_found. Qed.
Print Assumptions C40_sound.
Example C40_sound_case : exists x files out fuel, reach K toy x /\
  wo_procs x = [(JStore hello, Ret (Some hello_id)); (JStore big, Ret (Some big_id)); (JStore about_big, Ret (Some about_id))] /\
  opened fuel (wo_fs x) 0 = Ok files /\ len files = 3 /\ Forall (fun f => is_bytes (snd f)) files /\ main_audit K toy false fuel files = Ok out /\ no_complaint out.
Proof. exact clean_case. Qed.

(* After any number of stores and gets side by side which have all come to their
   end, the audit ends, visits every silo, finds all records good and names every
   object in segments, once, without a complaint; provided that nothing was stored
   twice by commands running at the same time, no silo number was left out, later
   segments are in later silos, and metadata have the usual identifiers. *)
Theorem C40_clean_partial : forall C L ign, conf_ok C -> zlib_ok L -> forall x k, reach C L x ->
  (forall j p, In (j, p) (wo_procs x) -> exists a, p = Ret a) ->
  once C L (wo_fs x) -> in_order C L (wo_fs x) -> gapless (wo_fs x) k -> meta_named C L ign (wo_fs x) ->
  N.of_nat (List.length (f_idx (wo_fs x))) < 2 ^ 31 - 2 ->
  exists ids, NoDup ids /\ (forall id, In id ids <-> exists n o w e, in_archive C L (wo_fs x) n o w e /\ segment_of C w id 1) /\
  exists m, forall fuel, (m <= fuel)%nat -> audit_archive C L ign fuel (wo_fs x) =
    Ok (flat_map (fun n => [LSilo (Z.of_N n); LTotal (len (entries (wo_fs x) n)) 0]) (upto k) ++ map LObject ids).
Proof. exact audit_ended. Qed.
Print Assumptions C40_clean_partial.
Example C40_clean_case : exists x, reach K toy x /\
  wo_procs x = [(JStore hello, Ret (Some hello_id)); (JStore big, Ret (Some big_id)); (JStore about_big, Ret (Some about_id))] /\
  once K toy (wo_fs x) /\ in_order K toy (wo_fs x) /\ gapless (wo_fs x) 3 /\ meta_named K toy false (wo_fs x) /\ len (f_idx (wo_fs x)) = 7 /\
  (forall n b w, f_silo (wo_fs x) n = Some (b, w) -> is_bytes b).
Proof. exact clean_run. Qed.

(* The same of any archive at rest in which every object is complete, whatever
   happened to the commands. *)
Theorem C40_rest_partial : forall C L ign, conf_ok C -> forall s k, inv C L s -> (forall n, f_hold s n = None) ->
  entire C L s -> once C L s -> in_order C L s -> gapless s k -> meta_named C L ign s ->
  N.of_nat (List.length (f_idx s)) < 2 ^ 31 - 2 ->
  exists ids, NoDup ids /\ (forall id, In id ids <-> exists n o w e, in_archive C L s n o w e /\ segment_of C w id 1) /\
  exists m, forall fuel, (m <= fuel)%nat -> audit_archive C L ign fuel s =
    Ok (flat_map (fun n => [LSilo (Z.of_N n); LTotal (len (entries s n)) 0]) (upto k) ++ map LObject ids).
Proof. exact audit_clean. Qed.
Print Assumptions C40_rest_partial.

(* The audit need not come to an end: a store killed behind its first segment. *)
Theorem C40_refuted_hang : exists x, reach K toy x /\ wo_procs x = [(JStore big, Die DKill)] /\
  forall ign fuel, audit_archive K toy ign fuel (wo_fs x) = Fuel.
Proof. exact hang_run. Qed.
Print Assumptions C40_refuted_hang.

(* It reports a segment as missing which is there: the segments of an object
   stored well are in silos 2, 3 and 1. *)
Theorem C40_refuted_order : exists x, reach K toy x /\
  wo_procs x = [(JStore hello, Ret (Some hello_id)); (JStore hello, Ret (Some hello_id)); (JStore three, Ret (Some three_id))] /\
  once K toy (wo_fs x) /\ gapless (wo_fs x) 4 /\ exists fuel out, audit_archive K toy false fuel (wo_fs x) = Ok out /\ In (LMissing 3) out.
Proof. exact order_run. Qed.
Print Assumptions C40_refuted_order.

(* It does not visit every silo: there is only silo 1. *)
Theorem C40_refuted_gap : exists x, reach K toy x /\ wo_procs x = [(JStore hello, Ret (Some hello_id)); (JStore hello, Ret (Some hello_id))] /\
  f_silo (wo_fs x) 1 <> None /\ forall ign fuel, audit_archive K toy ign (S fuel) (wo_fs x) = Ok [].
Proof. exact gap_run. Qed.
Print Assumptions C40_refuted_gap.

(* There need not be a report: a silo cut off by one byte. *)
Theorem C40_refuted_damage : exists x b w, reach K toy x /\ wo_procs x = [(JStore hello, Ret (Some hello_id))] /\ f_silo (wo_fs x) 0 = Some (b, w) /\
  main_audit K toy false 20 [(0%Z, removelast b)] = Abort /\ exists out, main_audit K toy false 20 [(0%Z, b)] = Ok out.
Proof. exact damage_run. Qed.
Print Assumptions C40_refuted_damage.
