(* Property theorems C20-C28, C38, C39, C43-C47: store and get.  Statements only.

   [reach C L x]: x is a state the archive and the commands using it can get
   into, from an empty archive, by any number of store and get commands running
   at the same time, system call by system call; any of them may be killed at any
   time, also in the middle of a write. *)
From Coq Require Import String Permutation.
From Verif Require Import Base IndexModel IndexSpec HeaderModel InflateSpec GzipModel GzipSpec ProgModel StoreModel StoreSpec StoreSysModel
  StoreToy StoreToyOk StoreWorld StoreAgain StoreOrigin StoreRuns StoreWit39 StoreEnd.
Open Scope string_scope.
Open Scope list_scope.
Open Scope N_scope.

(* C20: no silo is ever larger than silo.max_size. *)
Theorem C20_max_size : forall C L, conf_ok C -> zlib_ok L -> forall x n b w, reach C L x -> f_silo (wo_fs x) n = Some (b, w) -> len b <= c_max C.
Proof. exact max_size. Qed.
Print Assumptions C20_max_size.
Example C20_case : exists x b, conf_ok K /\ zlib_ok toy /\ reach K toy x /\ f_silo (wo_fs x) 1 = Some (b, true) /\ len b = 11986 /\ c_max K = 12000.
Proof. exact max_size_case. Qed.

(* C21: what is in a silo stays there; more may be added, but not to a silo which
   is write protected. *)
Theorem C21_append_only : forall C L, conf_ok C -> zlib_ok L -> forall x y n b w, reach C L x -> steps C L x y ->
  f_silo (wo_fs x) n = Some (b, w) ->
  exists t w', f_silo (wo_fs y) n = Some (b ++ t, w') /\ (w = false -> t = [] /\ w' = false).
Proof. exact append_only. Qed.
Print Assumptions C21_append_only.
Example C21_case : exists x y b t, reach K toy x /\ steps K toy x y /\ f_silo (wo_fs x) 0 = Some (b, true) /\ f_silo (wo_fs y) 0 = Some (b ++ t, true) /\ t <> [].
Proof. exact append_only_case. Qed.

(* Index entries stay, too. *)
Theorem C21_entries : forall C L, conf_ok C -> zlib_ok L -> forall x y, reach C L x -> steps C L x y ->
  exists more, Permutation (f_idx (wo_fs y)) (f_idx (wo_fs x) ++ more).
Proof. exact entries_stay. Qed.
Print Assumptions C21_entries.

(* C22: whoever works on a number (changes its hold file, its silo, or inserts
   index entries for it) is the one who created the hold file and has not removed
   it since; and a hold file is created only while nobody has the number. *)
Theorem C22_locks : forall C L, conf_ok C -> zlib_ok L -> forall tr x e y, history C L tr x -> lstep C L x (Some e) y ->
  (forall n, works_on (ev_call e) n -> holder tr n = Some (ev_proc e)) /\
  (forall n, ev_call e = CCreat n -> ev_ok e = true <-> holder tr n = None).
Proof. exact locks. Qed.
Print Assumptions C22_locks.
Example C22_case : exists tr x e y, history K toy tr x /\ lstep K toy x (Some e) y /\ works_on (ev_call e) 0 /\ holder tr 0 = Some 0%nat /\ ev_proc e = 0%nat.
Proof. exact locks_case. Qed.

(* C23: at any time every index entry is for a record which starts where the entry
   says: in the silo, or in the hold file of somebody who is writing (or has been
   interrupted). *)
Theorem C23_offsets : forall C L, conf_ok C -> zlib_ok L -> forall x e, reach C L x -> In e (f_idx (wo_fs x)) ->
  (exists w, in_archive C L (wo_fs x) (e_silo e) (e_off e) w e) \/
  (exists h, f_hold (wo_fs x) (e_silo e) = Some h /\ good_in C L (e_silo e) h e).
Proof. exact offsets. Qed.
Print Assumptions C23_offsets.
Example C23_case : exists x, reach K toy x /\ len (f_idx (wo_fs x)) = 7.
Proof. exact offsets_case. Qed.

(* C24 in full: get of what a store has printed delivers what was stored, as soon
   as it is printed, and ever after.  This is false (C24_refuted_*, C45, C46), so
   there are conditions here; C24_*_partial.
   When all commands have come to their end and index digits are unambiguous,
   get of what a store has printed (in any accepted form) delivers what was
   stored; and so it does later on, whatever is done and interrupted then, and
   while other commands are running, if their index entries have other digits. *)
Theorem C24_get_partial : forall C L, conf_ok C -> zlib_ok L -> forall x r b, reach C L x ->
  (forall j p, In (j, p) (wo_procs x) -> exists a, p = Ret a) -> apart C (wo_fs x) ->
  In (JStore r, Ret (Some b)) (wo_procs x) ->
  (forall r' b', In (JStore r', Ret (Some b')) (wo_procs x) -> lower b' = lower b -> List.concat (r_data r') = List.concat (r_data r)) ->
  (List.length (f_idx (wo_fs x)) <= c_fuel C)%nat -> N.of_nat (List.length (f_idx (wo_fs x))) < 2 ^ 31 - 1 ->
  forall y arg nid, good_id (c_prefix C) (c_idsize C) arg nid -> lower (c_prefix C ++ nid) = lower b ->
  steps C L x y -> new_apart C (wo_fs x) (wo_fs y) ->
  run (main_get C L false arg) (wo_fs y) = (wo_fs y, inl (Some (List.concat (r_data r)))).
Proof. exact end_get_later. Qed.
Print Assumptions C24_get_partial.
Example C24_case : exists x, reach K toy x /\ (forall j p, In (j, p) (wo_procs x) -> exists a, p = Ret a) /\ apart K (wo_fs x) /\
  In (JStore big, Ret (Some big_id)) (wo_procs x) /\
  (forall r' b', In (JStore r', Ret (Some b')) (wo_procs x) -> lower b' = lower big_id -> List.concat (r_data r') = List.concat (r_data big)) /\
  (List.length (f_idx (wo_fs x)) <= c_fuel K)%nat /\ len (List.concat (r_data big)) = 11500.
Proof. exact get_end_case. Qed.
Example C24_case_later : exists x y, reach K toy x /\ steps K toy x y /\ wo_procs x = [(JStore hello, Ret (Some hello_id))] /\
  apart K (wo_fs x) /\ len (f_idx (wo_fs x)) = 2 /\
  wo_procs y = [(JStore hello, Ret (Some hello_id)); (JStore other, Die DKill); (JStore one, Ret (Some one_id))] /\
  new_apart K (wo_fs x) (wo_fs y).
Proof. exact later_run. Qed.

Theorem C24_get_among_partial : forall C L, conf_ok C -> zlib_ok L -> forall x r b, reach C L x ->
  (forall j p, In (j, p) (wo_procs x) -> exists a, p = Ret a) -> apart C (wo_fs x) ->
  In (JStore r, Ret (Some b)) (wo_procs x) ->
  (forall r' b', In (JStore r', Ret (Some b')) (wo_procs x) -> lower b' = lower b -> List.concat (r_data r') = List.concat (r_data r)) ->
  (List.length (f_idx (wo_fs x)) <= c_fuel C)%nat -> N.of_nat (List.length (f_idx (wo_fs x))) < 2 ^ 31 - 1 ->
  forall arg nid tr y, good_id (c_prefix C) (c_idsize C) arg nid -> lower (c_prefix C ++ nid) = lower b ->
  trace C L (fun s => new_apart C (wo_fs x) s) (mkWorld (wo_fs x) (wo_procs x ++ [(JGet false arg, main_get C L false arg)])) tr y ->
  (forall e, In e tr -> ev_proc e = List.length (wo_procs x) -> only_looks (ev_call e)) /\
  exists p, nth_error (wo_procs y) (List.length (wo_procs x)) = Some (JGet false arg, p) /\
    (forall a, p = Ret a -> a = Some (List.concat (r_data r))) /\ (forall d, p = Die d -> d = DKill).
Proof. exact end_get_among. Qed.
Print Assumptions C24_get_among_partial.
Example C24_case_among : exists x tr y, reach K toy x /\ wo_procs x = [(JStore hello, Ret (Some hello_id))] /\ apart K (wo_fs x) /\ len (f_idx (wo_fs x)) = 2 /\
  trace K toy (fun s => new_apart K (wo_fs x) s) (mkWorld (wo_fs x) (wo_procs x ++ [(JGet false hello_id, main_get K toy false hello_id)])) tr y /\
  (returned 1 (str "Hello, world") y && returned 2 other_id y) = true.
Proof. exact get_turns. Qed.

(* Compressed delivery: one gzip member, which decompresses to what was stored. *)
Theorem C24_get_gzip_partial : forall C L, conf_ok C -> zlib_ok L -> forall x r b, reach C L x ->
  (forall j p, In (j, p) (wo_procs x) -> exists a, p = Ret a) -> apart C (wo_fs x) ->
  In (JStore r, Ret (Some b)) (wo_procs x) ->
  (forall r' b', In (JStore r', Ret (Some b')) (wo_procs x) -> lower b' = lower b -> List.concat (r_data r') = List.concat (r_data r)) ->
  (List.length (f_idx (wo_fs x)) <= c_fuel C)%nat -> N.of_nat (List.length (f_idx (wo_fs x))) < 2 ^ 31 - 1 ->
  forall arg nid, good_id (c_prefix C) (c_idsize C) arg nid -> lower (c_prefix C ++ nid) = lower b ->
  c_max C < 2 ^ 32 -> comb_ok (z_comb L) -> len (List.concat (r_data r)) < 2 ^ 32 ->
  exists out, run (main_get C L true arg) (wo_fs x) = (wo_fs x, inl (Some out)) /\
    gunzip out = Some (List.concat (r_data r), []).
Proof. exact end_getz. Qed.
Print Assumptions C24_get_gzip_partial.
Example C24_case_gzip : exists x, reach K toy x /\ (forall j p, In (j, p) (wo_procs x) -> exists a, p = Ret a) /\ apart K (wo_fs x) /\
  In (JStore big, Ret (Some big_id)) (wo_procs x) /\ c_max K < 2 ^ 32 /\ comb_ok (z_comb toy) /\ len (List.concat (r_data big)) < 2 ^ 32.
Proof. exact getz_end_case. Qed.

(* Digits can be ambiguous, and then get does not deliver.  An object with equal
   segments, alone in the archive: *)
Theorem C24_refuted_equal : exists C L x r b, conf_ok C /\ zlib_ok L /\ reach C L x /\ wo_procs x = [(JStore r, Ret (Some b))] /\
  snd (run (main_get C L false b) (wo_fs x)) = inl None.
Proof. exact refuted_equal. Qed.
Print Assumptions C24_refuted_equal.

(* A segment and another object which agree in eight digits: *)
Theorem C24_refuted_eight : exists C L x r1 r2 b1 b2, conf_ok C /\ zlib_ok L /\ reach C L x /\
  wo_procs x = [(JStore r1, Ret (Some b1)); (JStore r2, Ret (Some b2))] /\
  lower b1 <> lower b2 /\ snd (run (main_get C L false b2) (wo_fs x)) = inr DAbort.
Proof. exact refuted_eight. Qed.
Print Assumptions C24_refuted_eight.

(* C25: storing what is there already changes neither silos nor index and prints
   the same identifier; also while other commands are running.  Partial: index
   digits are unambiguous, as in C24; and that the second store comes to an end
   with success is not claimed (it can fail for want of a free hold, as in C45). *)
Theorem C25_again_partial : forall C L, conf_ok C -> zlib_ok L -> forall x r b, reach C L x ->
  (forall j p, In (j, p) (wo_procs x) -> exists a, p = Ret a) -> apart C (wo_fs x) ->
  In (JStore r, Ret (Some b)) (wo_procs x) ->
  (List.length (f_idx (wo_fs x)) <= c_fuel C)%nat -> N.of_nat (List.length (f_idx (wo_fs x))) < 2 ^ 31 - 1 ->
  forall r2 id2, request_ok r2 -> req_id C (z_sha L) r2 id2 -> lower (c_prefix C ++ id2) = lower b ->
  let (s', y) := run (main_store C L r2) (wo_fs x) in
  f_silo s' = f_silo (wo_fs x) /\ f_idx s' = f_idx (wo_fs x) /\
  match y with inl a => a = c_prefix C ++ id2 /\ (forall n, f_hold s' n = None) | inr _ => True end.
Proof. exact end_again. Qed.
Print Assumptions C25_again_partial.
Example C25_case : exists x, reach K toy x /\ (forall j p, In (j, p) (wo_procs x) -> exists a, p = Ret a) /\ apart K (wo_fs x) /\
  In (JStore hello, Ret (Some hello_id)) (wo_procs x) /\ (List.length (f_idx (wo_fs x)) <= c_fuel K)%nat /\
  request_ok hello /\ req_id K (z_sha toy) hello hello_dig /\ c_prefix K ++ hello_dig = hello_id /\
  snd (run (main_store K toy hello) (wo_fs x)) = inl hello_id.
Proof. exact again_end_case. Qed.

Theorem C25_again_among_partial : forall C L, conf_ok C -> zlib_ok L -> forall x r b, reach C L x ->
  (forall j p, In (j, p) (wo_procs x) -> exists a, p = Ret a) -> apart C (wo_fs x) ->
  In (JStore r, Ret (Some b)) (wo_procs x) ->
  (List.length (f_idx (wo_fs x)) <= c_fuel C)%nat -> N.of_nat (List.length (f_idx (wo_fs x))) < 2 ^ 31 - 1 ->
  forall r2 id2 tr y, request_ok r2 -> req_id C (z_sha L) r2 id2 -> lower (c_prefix C ++ id2) = lower b ->
  trace C L (fun s => new_apart C (wo_fs x) s) (mkWorld (wo_fs x) (wo_procs x ++ [(JStore r2, job_prog C L (JStore r2))])) tr y ->
  (forall e, In e tr -> ev_proc e = List.length (wo_procs x) -> harmless (ev_call e)) /\
  exists p, nth_error (wo_procs y) (List.length (wo_procs x)) = Some (JStore r2, p) /\ (forall a, p = Ret a -> a = Some (c_prefix C ++ id2)).
Proof. exact end_again_among. Qed.
Print Assumptions C25_again_among_partial.
Example C25_case_among : exists x tr y, reach K toy x /\ wo_procs x = [(JStore hello, Ret (Some hello_id))] /\ apart K (wo_fs x) /\ len (f_idx (wo_fs x)) = 2 /\
  trace K toy (fun s => new_apart K (wo_fs x) s) (mkWorld (wo_fs x) (wo_procs x ++ [(JStore hello, job_prog K toy (JStore hello))])) tr y /\
  (returned 1 hello_id y && returned 2 other_id y) = true.
Proof. exact again_turns. Qed.

(* The same object stored twice at the same time is in the archive twice. *)
Theorem C25_refuted_race : exists C L x r b k, conf_ok C /\ zlib_ok L /\ reach C L x /\
  wo_procs x = [(JStore r, Ret (Some b)); (JStore r, Ret (Some b))] /\
  len (filter (fun e => bytes_eqb (e_key e) k) (f_idx (wo_fs x))) = 2.
Proof. exact refuted_twice. Qed.
Print Assumptions C25_refuted_race.

(* C26: a store which has printed an identifier has stored the object under it, as
   one record or as a chain of segments which together are the input, or the
   identifier was there before.  The identifier depends on the input but not on
   the pieces it came in. *)
Theorem C26_segments : forall C L, conf_ok C -> zlib_ok L -> forall x r b, reach C L x -> In (JStore r, Ret (Some b)) (wo_procs x) ->
  exists id, b = c_prefix C ++ id /\ len id = c_idsize C /\ hexstr id /\ req_id C (z_sha L) r id /\
  ((exists p rest, stored_as C L (wo_fs x) (req_type r) id (List.concat (r_data r)) (p :: rest) /\
      has (wr_hdr (p_rec p)) "Content-Type" (r_mime r) /\
      (r_meta r = true -> has (wr_hdr (p_rec p)) "WARC-Refers-To" (str "<" ++ full_ref C r ++ str ">")) /\
      Forall (fun q => describes (z_sha L) (wr_hdr (p_rec q)) (wr_data (p_rec q))) (p :: rest)) \/
   ((forall n, f_hold (wo_fs x) n = None) -> exists w, present C L (wo_fs x) id w)).
Proof. exact segments. Qed.
Print Assumptions C26_segments.
Theorem C26_pieces : forall C L, conf_ok C -> zlib_ok L -> forall x r1 r2 b1 b2, reach C L x ->
  In (JStore r1, Ret (Some b1)) (wo_procs x) -> In (JStore r2, Ret (Some b2)) (wo_procs x) ->
  r_meta r1 = r_meta r2 -> r_ref r1 = r_ref r2 -> r_ident r1 = r_ident r2 ->
  List.concat (r_data r1) = List.concat (r_data r2) -> b1 = b2.
Proof. exact pieces. Qed.
Print Assumptions C26_pieces.
Example C26_pieces_case : exists x, reach K toy x /\
  wo_procs x = [(JStore five_once, Ret (Some five_id)); (JStore five_twice, Ret (Some five_id))] /\
  List.concat (r_data five_once) = List.concat (r_data five_twice) /\ r_data five_once <> r_data five_twice.
Proof. exact pieces_case. Qed.
Example C26_case : exists x, reach K toy x /\ In (JStore big, Ret (Some big_id)) (wo_procs x) /\
  exists p q rest, stored_as K toy (wo_fs x) (req_type big) big_dig (List.concat (r_data big)) (p :: q :: rest).
Proof. exact segments_case. Qed.

(* Where it is split does depend on the pieces. *)
Theorem C26_refuted_split : exists C L x1 x2 r1 r2 b, conf_ok C /\ zlib_ok L /\ reach C L x1 /\ reach C L x2 /\
  wo_procs x1 = [(JStore r1, Ret (Some b))] /\ wo_procs x2 = [(JStore r2, Ret (Some b))] /\
  List.concat (r_data r1) = List.concat (r_data r2) /\ f_silo (wo_fs x1) 0 <> f_silo (wo_fs x2) 0.
Proof. exact refuted_split. Qed.
Print Assumptions C26_refuted_split.

(* C27: when all commands have come to their end, every entry is for a record in a
   silo, at the offset it says; and every silo is a sequence of records, with one
   entry for each. *)
Theorem C27_index : forall C L, conf_ok C -> zlib_ok L -> forall x, reach C L x ->
  (forall j p, In (j, p) (wo_procs x) -> exists a, p = Ret a) ->
  (forall e, In e (f_idx (wo_fs x)) -> exists w, in_archive C L (wo_fs x) (e_silo e) (e_off e) w e) /\
  (forall n b w, f_silo (wo_fs x) n = Some (b, w) -> silo_ok C L n b (entries (wo_fs x) n)) /\
  (forall n, f_hold (wo_fs x) n = None).
Proof. exact index_end. Qed.
Print Assumptions C27_index.
Example C27_case : exists x, reach K toy x /\ (forall j p, In (j, p) (wo_procs x) -> exists a, p = Ret a) /\ len (f_idx (wo_fs x)) = 7.
Proof. exact index_end_case. Qed.

(* C28: what is stored stays stored, whatever is interrupted (that get delivers it
   is C24_get_partial).  But what has been interrupted cannot always be stored again: *)
Theorem C28_stays_partial : forall C L, conf_ok C -> zlib_ok L -> forall x y typ id data ps, reach C L x -> steps C L x y ->
  stored_as C L (wo_fs x) typ id data ps -> stored_as C L (wo_fs y) typ id data ps.
Proof. exact stays. Qed.
Print Assumptions C28_stays_partial.
Example C28_case : exists x y ps, reach K toy x /\ steps K toy x y /\
  stored_as K toy (wo_fs x) (str "resource") hello_dig (str "Hello, world") ps /\
  wo_procs y = [(JStore hello, Ret (Some hello_id)); (JStore other, Die DKill); (JStore one, Ret (Some one_id))].
Proof. exact stays_case. Qed.

Theorem C28_refuted_stuck : exists C L x r id, conf_ok C /\ zlib_ok L /\ reach C L x /\ wo_procs x = [(JStore r, Die DKill)] /\ req_id C (z_sha L) r id /\
  snd (run (main_store C L r) (wo_fs x)) = inr DAbort /\ snd (run (main_get C L false (c_prefix C ++ id)) (wo_fs x)) = inr DAbort.
Proof. exact refuted_stuck. Qed.
Print Assumptions C28_refuted_stuck.

Theorem C28_refuted_lost : exists C L x r1 r2 b, conf_ok C /\ zlib_ok L /\ reach C L x /\
  wo_procs x = [(JStore r1, Die DKill); (JStore r2, Ret (Some b))] /\ List.concat (r_data r1) = List.concat (r_data r2) /\
  snd (run (main_get C L false b) (wo_fs x)) = inl None.
Proof. exact refuted_lost. Qed.
Print Assumptions C28_refuted_lost.

(* C38: what the cache file says is true at any time: all silos below the first
   number exist, and those below the second have less free space than there are
   silos. *)
Theorem C38_cache : forall C L, conf_ok C -> zlib_ok L -> forall x c, reach C L x -> f_cache (wo_fs x) = Some c -> cache_ok C (wo_fs x) c.
Proof. exact cache_always. Qed.
Print Assumptions C38_cache.
Example C38_case : exists x, reach K toy x /\ f_cache (wo_fs x) = Some (3, 0).
Proof. exact cache_case. Qed.

(* C39: a silo nobody is working on is a sequence of records without gaps, and
   each header fills the space up to its body.  But not every header can be made
   to: a store can fail half way. *)
Theorem C39_no_gaps_partial : forall C L, conf_ok C -> zlib_ok L -> forall x n b w, reach C L x -> f_hold (wo_fs x) n = None ->
  f_silo (wo_fs x) n = Some (b, w) -> exists l, layout C L 0 b l.
Proof. exact no_gaps. Qed.
Print Assumptions C39_no_gaps_partial.
Example C39_case : exists x b, reach K toy x /\ f_hold (wo_fs x) 1 = None /\ f_silo (wo_fs x) 1 = Some (b, true) /\ len b = 11986.
Proof. exact no_gaps_case. Qed.
Theorem C39_refuted : exists C L x r, conf_ok C /\ zlib_ok L /\ reach C L x /\ wo_procs x = [(JStore r, Die DAbort)] /\
  f_silo (wo_fs x) 0 <> None /\ f_silo (wo_fs x) 1 = None.
Proof. exact refuted_padding. Qed.
Print Assumptions C39_refuted.

(* C43: what metadata refers to is there. *)
Theorem C43_refers : forall C L, conf_ok C -> zlib_ok L -> forall x r b, reach C L x -> In (JStore r, Ret (Some b)) (wo_procs x) ->
  r_meta r = true -> (forall n, f_hold (wo_fs x) n = None) ->
  exists rid w, good_id (c_prefix C) (c_idsize C) (full_ref C r) rid /\ present C L (wo_fs x) rid w.
Proof. exact refers. Qed.
Print Assumptions C43_refers.
Example C43_case : exists x, reach K toy x /\ In (JStore about_big, Ret (Some about_id)) (wo_procs x) /\ r_meta about_big = true /\
  (forall n, f_hold (wo_fs x) n = None).
Proof. exact refers_case. Qed.

(* C44: what get delivers for a resource has the digest it was asked by. *)
Theorem C44_digest : forall C L, conf_ok C -> zlib_ok L -> forall x arg d, reach C L x -> In (JGet false arg, Ret (Some d)) (wo_procs x) ->
  (forall n, f_hold (wo_fs x) n = None) ->
  exists nid w, good_id (c_prefix C) (c_idsize C) arg nid /\ present C L (wo_fs x) nid w /\
    (has (wr_hdr w) "WARC-Type" (str "resource") -> lower (firstn (N.to_nat (c_idsize C)) (z_sha L d)) = lower nid).
Proof. exact digest_right. Qed.
Print Assumptions C44_digest.
Example C44_case : exists x, reach K toy x /\ In (JGet false hello_id, Ret (Some (str "Hello, world"))) (wo_procs x) /\ (forall n, f_hold (wo_fs x) n = None).
Proof. exact digest_case. Qed.

(* C45: commands running at the same time can make each other fail. *)
Theorem C45_refuted_store : exists C L x r1 r2 b, conf_ok C /\ zlib_ok L /\ reach C L x /\
  wo_procs x = [(JStore r1, Die DAbort); (JStore r2, Ret (Some b))].
Proof. exact refuted_race. Qed.
Print Assumptions C45_refuted_store.
Theorem C45_refuted_get : exists C L x r b, conf_ok C /\ zlib_ok L /\ reach C L x /\
  wo_procs x = [(JStore r, Ret (Some b)); (JGet false b, Die DAbort)].
Proof. exact refuted_race_get. Qed.
Print Assumptions C45_refuted_get.

(* C46: with -i, a store can print an identifier under which something else is
   stored; and a form of identifier which is accepted can make it abort. *)
Theorem C46_refuted_lost : exists C L x r0 r1 r2 b0 b, conf_ok C /\ zlib_ok L /\ reach C L x /\
  wo_procs x = [(JStore r0, Ret (Some b0)); (JStore r1, Ret (Some b)); (JStore r2, Ret (Some b))] /\
  List.concat (r_data r1) <> List.concat (r_data r2) /\
  snd (run (main_get C L false b) (wo_fs x)) = inl (Some (List.concat (r_data r1))).
Proof. exact refuted_forced. Qed.
Print Assumptions C46_refuted_lost.
Theorem C46_refuted_form : exists C L x r0 r b0 i nid, conf_ok C /\ zlib_ok L /\ reach C L x /\
  wo_procs x = [(JStore r0, Ret (Some b0)); (JStore r, Die DAbort)] /\ r_ident r = Some i /\ good_id (c_prefix C) (c_idsize C) i nid.
Proof. exact refuted_form. Qed.
Print Assumptions C46_refuted_form.

(* C47: a new silo is begun although there is one with a lot of room. *)
Theorem C47_refuted : exists C L x r0 r1 r2 i0 i1 i2 b1 b2, conf_ok C /\ zlib_ok L /\ reach C L x /\
  wo_procs x = [(JStore r0, Ret (Some i0)); (JStore r1, Ret (Some i1)); (JStore r2, Ret (Some i2))] /\
  f_silo (wo_fs x) 1 = Some (b1, true) /\ f_silo (wo_fs x) 2 = Some (b2, true) /\ len b1 + len b2 < c_max C / 4.
Proof. exact refuted_room. Qed.
Print Assumptions C47_refuted.
