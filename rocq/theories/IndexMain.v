(* The index properties, derived from the invariant. *)
From Coq Require Import List NArith ZArith Bool Lia Sorting.Sorted Sorting.Permutation.
From Coq Require Import ZifyBool ZifyNat ZifyN.
From Coq Require Import String.
From Verif Require Import Base BaseLemmas IndexModel IndexSpec IndexSysModel IndexSysSpec
  IndexRaceModel IndexRaceSpec IndexProofs IndexBucket IndexLookup IndexHk IndexHist IndexRace.
Open Scope string_scope.
Open Scope list_scope.
Open Scope N_scope.

Lemma ents_nil : ents [] = [].
Proof. reflexivity. Qed.

Lemma hist_ops id_size sort_size ops : ok_conf id_size sort_size -> Forall ok_op ops ->
  len (ideal_ops ops) < 2 ^ 38 ->
  exists st L S I, run_ops id_size sort_size ifs_empty ops = Ok st /\ hinv L (mkSys st []) S I /\
    f_hold st = false /\ f_hk st = None /\ ents L = ideal_ops ops.
Proof.
  intros Hc Ho Hn.
  destruct (run_ops_inv id_size sort_size Hc ops [] ifs_empty [] [] hinv_empty eq_refl eq_refl) as (st & L & S & I & E & H & Hh & Hk & EL & _); auto.
  exists st, L, S, I. auto.
Qed.

Lemma hist_evs id_size sort_size evs : ok_conf id_size sort_size -> Forall ok_ev evs ->
  len (ideal_evs evs) < 2 ^ 38 ->
  exists y L S I, sys_run id_size sort_size (mkSys ifs_empty []) evs = Ok y /\ hinv L y S I /\
    ents L = ideal_evs evs.
Proof.
  intros Hc Ho Hn.
  destruct (sys_run_inv id_size sort_size Hc evs [] (mkSys ifs_empty []) [] [] hinv_empty) as (y & L & S & I & E & H & EL & _); auto.
  exists y, L, S, I. auto.
Qed.

(** * Lookup by key *)

Lemma key_bin_ok k : hexstr k -> exists kp, idx_key_bin KEYSUMM k = Ok kp /\ key_bin (Some k) kp.
Proof.
  intros Hk. destruct (idx_key_bin_ok KEYSUMM k Hk) as (kp & E & L & B & HH). exists kp. split; auto.
  split; [split|]; auto.
Qed.

Lemma wf_unique f R bb nr R' bb' nr' : wf_file f R bb nr -> wf_file f R' bb' nr' ->
  bb = bb' /\ nr = nr' /\ R = R'.
Proof.
  intros W W'.
  assert (Hw : INDEX_ID * 2 ^ 48 + bb * 2 ^ 40 + nr = INDEX_ID * 2 ^ 48 + bb' * 2 ^ 40 + nr').
  { destruct W as [[bp [I E]] W1 W2 _ W4 _ _], W' as [[bp' [I' E']] W1' W2' _ W4' _ _].
    assert (X := header_word bp bb nr R (concat R) I ltac:(lia) W2). rewrite <- E in X.
    assert (Y := header_word bp' bb' nr' R' (concat R') I' ltac:(lia) W2'). rewrite <- E' in Y. congruence. }
  assert (bb = bb' /\ nr = nr').
  { assert (A := wf_nr _ _ _ _ W). assert (B := wf_nr _ _ _ _ W').
    change (2 ^ 40) with 1099511627776 in *. lia. }
  destruct H as [-> ->]. split; auto. split; auto.
  destruct (wf_chunks _ _ _ _ W) as [E1 _]. destruct (wf_chunks _ _ _ _ W') as [E2 _].
  rewrite E1 in E2. apply app_inv_head in E2. auto.
Qed.

Lemma clear_start_fine st R k : sorted_ok (f_sorted st) R -> hexstr k ->
  start_clear st k -> bucket_used st k -> seek_fine st R (Some k).
Proof.
  intros Hs Hk Hc Hu f bb nr kp Ef W Hkb.
  unfold start_clear, bucket_used in *. rewrite Ef in *.
  destruct Hc as (kp' & hdr & pos & E1 & E2 & E3 & Hle).
  destruct (key_bin_ok k Hk) as (kp2 & E4 & Hkb2). rewrite E4 in E1. injection E1 as <-.
  assert (kp2 = kp).
  { destruct Hkb as [[L B] HH], Hkb2 as [[L2 B2] HH2]. apply hexs_inj; auto; congruence. }
  subst kp2. clear Hkb2.
  assert (Hhdr : hdr = 2 ^ (bb + 3)).
  { assert (W' := W). destruct W' as [[bp [I E]] W1 W2 _ W4 _ _]. rewrite E in E2.
    rewrite (bucket_skip_ok bp bb nr R) in E2 by (auto; lia). congruence. }
  split.
  - rewrite (seek_ok f R bb nr kp W) in E3 by apply Hkb. unfold seek_clear.
    destruct (bucket_of bb kp =? 0) eqn:Eb. { left. apply N.eqb_eq. auto. }
    right. destruct (seek_pos bb nr R kp <? 0)%Z eqn:Ez; [discriminate|]. apply Z.ltb_ge in Ez.
    injection E3 as <-.
    assert (X := hdr_mult bb ltac:(apply (wf_bb _ _ _ _ W))).
    assert (Y := pow_hdr bb). lia.
  - unfold bucket_known. right. destruct Hu as [Hu|(bits & r & Hbits & Hr & Hb)].
    + left. unfold qlen. assert (Z := wf_bb _ _ _ _ W). unfold len in Hu. lia.
    + right.
      assert (bits = bb).
      { unfold table_bits in Hbits. assert (W' := W). destruct W' as [[bp [I E]] W1 W2 _ W4 _ _]. rewrite E in Hbits.
        rewrite (header_word bp bb nr R) in Hbits by (auto; lia). cbn [bind] in Hbits.
        destruct (header_fields bb nr ltac:(lia) W2) as (F1 & F2 & _). rewrite F2 in Hbits. congruence. }
      subst bits. exists r. destruct Hb as (kp' & Ekp & Hb). rewrite E4 in Ekp. injection Ekp as <-.
      split; [|exact Hb].
      destruct Hr as (hdr' & E2' & Hr). rewrite E2 in E2'. injection E2' as <-.
      rewrite Hhdr in Hr. unfold whole_records in Hr. rewrite (seek_chunks0 f R bb nr W) in Hr.
      apply filter_In in Hr. apply Hr.
Qed.


Lemma predict_width bb nr f g : bb <= 24 -> nr < 2 ^ 40 -> f < 2 ^ 64 -> g < 2 ^ 64 ->
  f / 2 ^ (64 - bb) = g / 2 ^ (64 - bb) -> predict nr g <= predict nr f + nr / 2 ^ bb + 1.
Proof.
  intros Hb Hn Hf Hg E. rewrite !predict_eq by auto.
  set (f' := f / 2 ^ 40). set (g' := g / 2 ^ 40).
  assert (E' : f' / 2 ^ (24 - bb) = g' / 2 ^ (24 - bb)).
  { unfold f', g'. rewrite !N.div_div by (apply N.pow_nonzero; discriminate).
    rewrite <- N.pow_add_r. replace (40 + (24 - bb)) with (64 - bb) by lia. auto. }
  assert (P : 2 ^ (24 - bb) <> 0) by (apply N.pow_nonzero; discriminate).
  assert (Q : 2 ^ bb <> 0) by (apply N.pow_nonzero; discriminate).
  assert (W : g' <= f' + 2 ^ (24 - bb)).
  { rewrite (N.div_mod g' _ P), (N.div_mod f' _ P), E'.
    assert (A := N.mod_lt g' _ P). generalize dependent (2 ^ (24 - bb)). intros. nia. }
  (* g'*nr <= f'*nr + 2^(24-bb)*nr *)
  assert (X : g' * nr / 2 ^ 24 <= (f' * nr + 2 ^ (24 - bb) * nr) / 2 ^ 24).
  { apply N.div_le_mono; [discriminate|]. nia. }
  assert (Y : 2 ^ 24 = 2 ^ (24 - bb) * 2 ^ bb). { rewrite <- N.pow_add_r. f_equal. lia. }
  assert (Z1 : 2 ^ (24 - bb) * nr / 2 ^ 24 = nr / 2 ^ bb).
  { rewrite Y. rewrite N.div_mul_cancel_l; auto. }
  rewrite <- Z1. change (2 ^ 24) with 16777216 in *. 
  revert X. generalize (f' * nr) (2 ^ (24 - bb) * nr) (g' * nr). intros. lia.
Qed.

Lemma below_count bb (R : list bytes) b : forall i r, Forall is_rec R -> StronglySorted lexle R ->
  nth_error R i = Some r -> bucket_of bb r = b ->
  (length (filter (fun r => (bucket_of bb r <? b)%N) R) <= i)%nat.
Proof.
  intros i r HR HS Hi Hb. revert i Hi. induction R as [|x R IH]; intros i Hi; [destruct i; discriminate|].
  apply Forall_cons_iff in HR. destruct HR as [Hx HR]. apply StronglySorted_inv in HS. destruct HS as [HS Hl].
  assert (P : 2 ^ (64 - bb) <> 0) by (apply N.pow_nonzero; discriminate).
  destruct i; cbn [nth_error] in Hi.
  - injection Hi as ->. cbn [filter]. rewrite Hb, N.ltb_irrefl.
    replace (filter _ R) with (@nil bytes); [simpl; lia|]. symmetry.
    clear IH HS. induction R as [|y R IH]; auto. apply Forall_cons_iff in HR, Hl. destruct HR, Hl. cbn [filter].
    replace (bucket_of bb y <? b) with false; auto. symmetry. apply N.ltb_ge. rewrite <- Hb. unfold bucket_of.
    apply N.div_le_mono; auto. apply frac_mono; auto.
  - specialize (IH HR HS i Hi). cbn [filter]. destruct (_ <? _); simpl List.length; lia.
Qed.

Lemma deep_clear st R k : sorted_ok (f_sorted st) R -> hexstr k -> deep st k -> start_clear st k.
Proof.
  intros Hs Hk. unfold deep, start_clear. destruct (f_sorted st) as [f|] eqn:Ef; auto.
  intros (bits & n & kp & hdr & Eb & En & Ekp & Eh & Hn & Hd).
  destruct Hs as [[X _]|(f0 & bb & nr & [= <-] & W)]; [discriminate|].
  destruct (key_bin_ok k Hk) as (kp' & Ekp' & Hkb). rewrite Ekp in Ekp'. injection Ekp' as <-.
  assert (Hrw := W). destruct Hrw as [[bp [I E]] W1 W2 W3 W4 W5 W6].
  destruct (header_fields bb nr ltac:(lia) W2) as (F1 & F2 & F3).
  unfold table_bits in Eb. unfold table_nrec in En. rewrite E in Eb, En.
  rewrite (header_word bp bb nr R) in Eb, En by (auto; lia). cbn [bind] in Eb, En.
  rewrite F2 in Eb. rewrite F3 in En. injection Eb as <-. injection En as <-.
  assert (Hhdr : hdr = 2 ^ (bb + 3)).
  { rewrite E in Eh. rewrite (bucket_skip_ok bp bb nr R) in Eh by (auto; lia). congruence. }
  subst hdr.
  assert (Hs := seek_ok f R bb nr kp W ltac:(apply Hkb)).
  fold (frac_of kp) in Hd. fold (bucket_of bb kp) in Hd.
  destruct (bucket_of bb kp =? 0) eqn:Eb0.
  { exists kp, (2 ^ (bb + 3)), (2 ^ (bb + 3)). conjs; auto. lia. }
  destruct Hd as [Hd|Hd]; [apply N.eqb_neq in Eb0; congruence|].
  unfold whole_records in Hd. rewrite (seek_chunks0 f R bb nr W) in Hd.
  assert (Hf : filter (fun r : list N => Nat.eqb (length r) 32) R = R).
  { clear - W4. induction R as [|x R IH]; auto. apply Forall_cons_iff in W4. destruct W4 as [[L _] ?]. cbn [filter].
    rewrite L. rewrite IH; auto. }
  rewrite Hf in Hd.
  assert (Hb24 : bb <= 24).
  { destruct W3 as [->|W3]; [lia|]. destruct (N.le_gt_cases bb 24) as [?|G]; auto. exfalso.
    assert (2 ^ (25 + 12) <= 2 ^ (bb + 12)) by (apply N.pow_le_mono_r; lia).
    change (2 ^ (25 + 12)) with 137438953472 in *. change (2 ^ 32) with 4294967296 in Hn. lia. }
  assert (Hge : (Z.of_N (2 ^ (bb - 2)) <= seek_pos bb nr R kp)%Z).
  { unfold seek_pos. rewrite (N.mod_small nr) by auto.
    destruct (off_from_attained 0 bb nr (bucket_of bb kp) R (2 ^ 31)) as [H|(i & r & Hi & Hr & Ho)]; unfold off_spec.
    - rewrite H. assert (2 ^ (bb - 2) <= 2 ^ 26) by (apply N.pow_le_mono_r; lia).
      change (2 ^ 26) with 67108864 in *. change (2 ^ 31)%Z with 2147483648%Z. lia.
    - rewrite Ho. assert (C := below_count bb R _ i r W4 W5 Hi Hr).
      assert (Hrr : is_rec r). { rewrite Forall_forall in W4. apply W4. eapply nth_error_In; eauto. }
      assert (Wd := predict_width bb nr (frac_of kp) (frac_of r) Hb24 W2 (key_frac_bound kp ltac:(apply Hkb)) (frac_bound r Hrr) (eq_sym Hr)).
      fold (upos nr r) in Wd. unfold len in Hd. 
      change (fun r : list N => be_dec (firstn 8 r) / 2 ^ (64 - bb) <? bucket_of bb kp) with (fun r => bucket_of bb r <? bucket_of bb kp) in Hd.
      assert (C' : N.of_nat (@length (list N) (@filter (list N) (fun r => bucket_of bb r <? bucket_of bb kp) R)) <= N.of_nat i).
      { clear - C. unfold bytes in C. lia. }
      assert (Hd' := N.le_trans _ _ _ Hd C').
      clear - Hd' Wd. revert Hd' Wd.
      generalize (nr / 2 ^ bb) (2 ^ (bb - 2)) (predict nr (frac_of kp)) (upos nr r). intros. lia. }
  assert (Hpos : (0 <= seek_pos bb nr R kp)%Z) by lia.
  replace (seek_pos bb nr R kp <? 0)%Z with false in Hs by (symmetry; apply Z.ltb_ge; auto).
  exists kp, (2 ^ (bb + 3)), (Z.to_N (seek_pos bb nr R kp) * 32). conjs; auto.
  replace (bb + 3) with ((bb - 2) + 5) by lia. rewrite N.pow_add_r. change (2 ^ 5) with 32.
  apply N.mul_le_mono_r. lia.
Qed.

Lemma lookup_key_hinv L y S I k : hinv L y S I -> hexstr k ->
  start_clear (y_fs y) k -> bucket_used (y_fs y) k ->
  exists l, lookup (y_fs y) (Some k) = Ok l /\
    (forall e, In e l <-> In e (ents L) /\ asked (Some k) e).
Proof.
  intros H Hk Hc Hu.
  assert (HO := hinv_idx_ok _ _ _ _ H).
  assert (Hf := clear_start_fine (y_fs y) S k (hi_s _ _ _ _ H) Hk Hc Hu).
  eexists. split; [apply (lookup_exact _ _ _ _ (Some k) HO Hk Hf)|].
  intros e. rewrite filter_In. unfold ents. rewrite !in_map_iff.
  assert (R := io_rec _ _ _ _ HO). rewrite Forall_forall in R.
  split.
  - intros ((r & <- & Hr) & Ha). split.
    + exists r. split; auto. apply (hinv_visible _ _ _ _ H). auto.
    + apply askedb_asked; auto.
  - intros ((r & <- & Hr) & Ha). apply (hinv_visible _ _ _ _ H) in Hr. split.
    + exists r. auto.
    + apply askedb_asked; auto.
Qed.

Lemma lookup_deep_hinv L y S I k : hinv L y S I -> hexstr k -> 7 <= len k ->
  deep (y_fs y) k ->
  exists l, lookup (y_fs y) (Some k) = Ok l /\
    (forall e, In e l <-> In e (ents L) /\ asked (Some k) e).
Proof.
  intros H Hk H7 Hd. eapply lookup_key_hinv; eauto.
  - eapply deep_clear; eauto. apply (hi_s _ _ _ _ H).
  - unfold bucket_used. destruct (f_sorted (y_fs y)); auto.
Qed.

Lemma lookup_deep_evs id_size sort_size evs k :
  ok_conf id_size sort_size -> Forall ok_ev evs -> len (ideal_evs evs) < 2 ^ 38 -> hexstr k -> 7 <= len k ->
  exists y, sys_run id_size sort_size (mkSys ifs_empty []) evs = Ok y /\
    (deep (y_fs y) k ->
     exists l, lookup (y_fs y) (Some k) = Ok l /\
       (forall e, In e l <-> In e (ideal_evs evs) /\ asked (Some k) e)).
Proof.
  intros Hc Ho Hn Hk H7. destruct (hist_evs id_size sort_size evs Hc Ho Hn) as (y & L & S & I & E & H & EL).
  exists y. split; auto. intros. rewrite <- EL. eapply lookup_deep_hinv; eauto.
Qed.

Lemma lookup_evs id_size sort_size evs k :
  ok_conf id_size sort_size -> Forall ok_ev evs -> len (ideal_evs evs) < 2 ^ 38 -> hexstr k ->
  exists y, sys_run id_size sort_size (mkSys ifs_empty []) evs = Ok y /\
    (start_clear (y_fs y) k -> bucket_used (y_fs y) k ->
     exists l, lookup (y_fs y) (Some k) = Ok l /\
       (forall e, In e l <-> In e (ideal_evs evs) /\ asked (Some k) e)).
Proof.
  intros Hc Ho Hn Hk. destruct (hist_evs id_size sort_size evs Hc Ho Hn) as (y & L & S & I & E & H & EL).
  exists y. split; auto. intros. rewrite <- EL. eapply lookup_key_hinv; eauto.
Qed.

Lemma lookup_unsorted id_size sort_size ops key :
  ok_conf id_size sort_size -> Forall ok_op ops -> Forall (fun o => o <> OResort) ops ->
  match key with Some k => hexstr k | None => True end ->
  exists st l, run_ops id_size sort_size ifs_empty ops = Ok st /\ lookup st key = Ok l /\
    exists keep, l = filter keep (ideal_ops ops) /\
      forall e, In e (ideal_ops ops) -> (keep e = true <-> asked key e).
Proof.
  intros Hc Ho Hn Hk.
  destruct (run_inserts id_size sort_size Hc ops [] ifs_empty [] hinv_empty eq_refl eq_refl eq_refl eq_refl Ho Hn)
    as (st & L & I & E & H & Es & Eh & Ea & Ehold & EL).
  assert (HO := hinv_idx_ok _ _ _ _ H). cbn [y_fs] in HO. rewrite Ea, Eh in HO. simpl in HO.
  exists st, (filter (askedb key) (ents ([] ++ L ++ []))). split; auto. split.
  - apply (lookup_exact st [] L []); auto. intros f bb nr kp Ef. congruence.
  - exists (askedb key). split; [simpl; rewrite app_nil_r, EL; auto|].
    intros e He. rewrite <- app_nil_l in He. change [] with (ents []) in He at 1. rewrite <- EL in He.
    unfold ents in He. rewrite in_map_iff in He. destruct He as (r & <- & Hr). apply askedb_asked; auto.
    assert (R := hi_rec _ _ _ _ H). rewrite Forall_forall in R. auto.
Qed.

(** * Housekeeping *)

Lemma resort_hist id_size sort_size ops :
  ok_conf id_size sort_size -> Forall ok_op ops -> len (ideal_ops ops) < 2 ^ 38 ->
  exists st st' l', run_ops id_size sort_size ifs_empty ops = Ok st /\
    IDX_Resort sort_size st = Ok st' /\ lookup st' None = Ok l' /\
    (forall e, In e l' <-> In e (ideal_ops ops)) /\
    StronglySorted key_le l' /\
    f_app st' = None /\ f_hk st' = None /\ f_hold st' = false.
Proof.
  intros Hc Ho Hn. destruct (hist_ops id_size sort_size ops Hc Ho Hn) as (st & L & S & I & E & H & Hh & Hk & EL).
  assert (Hlen : len L = len (ideal_ops ops)).
  { rewrite <- EL. unfold ents, len. rewrite map_length. auto. }
  destruct Hc as (Hc1 & Hc2 & Hc3).
  destruct (resort_ok sort_size L st S I H) as (st' & S' & E' & H' & Ea & Eh & Ehold & _); auto; try lia.
  { unfold small_hist. lia. }
  assert (Ek : f_hk st' = None) by (destruct Eh as [?|[_ ?]]; congruence).
  assert (El := lookup_all _ _ _ _ H'). cbn [y_fs] in El. rewrite Ea, Ek in El. simpl in El. rewrite app_nil_r in El.
  exists st, st', (ents S'). conjs; auto.
  - intros e. rewrite <- EL. unfold ents. rewrite !in_map_iff.
    assert (V := hinv_visible _ _ _ _ H'). cbn [y_fs] in V. rewrite Ea, Ek in V. simpl in V. rewrite app_nil_r in V.
    split; intros (r & <- & Hr); exists r; split; auto; apply V; auto.
  - apply ents_sorted.
    + apply (hinv_recs _ _ _ _ H').
    + eapply sorted_ok_sorted. apply (hi_s _ _ _ _ H').
Qed.

Lemma resort_dup id_size sort_size ops dups :
  ok_conf id_size sort_size -> Forall ok_op ops -> Forall ok_op dups ->
  len (ideal_ops (ops ++ dups)) < 2 ^ 38 ->
  incl (ideal_ops dups) (ideal_ops ops) ->
  exists st st' l, run_ops id_size sort_size ifs_empty (ops ++ [OResort]) = Ok st /\
    run_ops id_size sort_size st (dups ++ [OResort]) = Ok st' /\
    lookup st None = Ok l /\ lookup st' None = Ok l.
Proof.
  intros Hc Ho Hd Hn Hincl. rewrite ideal_ops_app in Hn. unfold len in Hn. rewrite app_length in Hn.
  assert (Hc' := Hc). destruct Hc' as (Hc1 & Hc2 & Hc3).
  destruct (hist_ops id_size sort_size ops Hc Ho ltac:(unfold len; lia)) as (st0 & L0 & S0 & I0 & E0 & H0 & Hh0 & Hk0 & EL0).
  assert (Hl0 : length L0 = length (ideal_ops ops)). { rewrite <- EL0. unfold ents. rewrite map_length. auto. }
  assert (R : forall L st S I, hinv L (mkSys st []) S I -> f_hold st = false -> f_hk st = None -> small_hist L ->
     exists st' S', IDX_Resort sort_size st = Ok st' /\ hinv L (mkSys st' []) S' I /\ f_app st' = None /\ f_hk st' = None /\
       f_hold st' = false /\ grow S S' /\ lookup st' None = Ok (ents S') /\ (forall r, In r S' <-> In r L)).
  { intros L st S I H Hh Hk Hsm.
    destruct (resort_ok sort_size L st S I H) as (st' & S' & E' & H' & Ea & Eh & Ehold & G); auto; try lia.
    assert (Ek : f_hk st' = None) by (destruct Eh as [?|[_ ?]]; congruence).
    assert (El := lookup_all _ _ _ _ H'). cbn [y_fs] in El. rewrite Ea, Ek in El. simpl in El. rewrite app_nil_r in El.
    assert (V := hinv_visible _ _ _ _ H'). cbn [y_fs] in V. rewrite Ea, Ek in V. simpl in V. rewrite app_nil_r in V.
    exists st', S'. conjs; auto. }
  destruct (R L0 st0 S0 I0 H0 Hh0 Hk0) as (st1 & S1 & E1 & H1 & Ea1 & Ek1 & Hh1 & _ & El1 & V1).
  { unfold small_hist, len. lia. }
  destruct (run_ops_inv id_size sort_size Hc dups L0 st1 S1 I0 H1 Hh1 Ek1) as (st2 & L2 & S2 & I2 & E2 & H2 & Hh2 & Ek2 & EL2 & G2); auto.
  { unfold len. lia. }
  assert (Hl2 : length L2 = (length L0 + length (ideal_ops dups))%nat).
  { apply (f_equal (@length _)) in EL2. unfold ents in EL2. rewrite app_length, !map_length in EL2. auto. }
  destruct (R L2 st2 S2 I2 H2 Hh2 Ek2) as (st3 & S3 & E3 & H3 & Ea3 & Ek3 & Hh3 & G3 & El3 & V3).
  { unfold small_hist, len. lia. }
  exists st1, st3, (ents S1). rewrite !run_ops_app, E0, E2. cbn [bind run_ops run_op]. rewrite E1, E3. cbn [bind].
  conjs; auto. rewrite El3. f_equal. f_equal. symmetry. apply grow_same.
  - eapply sorted_ok_sorted. apply (hi_s _ _ _ _ H1).
  - eapply sorted_ok_sorted. apply (hi_s _ _ _ _ H3).
  - eapply grow_trans; eauto.
  - intros r Hr. apply V1. apply V3 in Hr.
    assert (Hin : In (ent_of_rec r) (ents L2)) by (apply in_map; auto).
    rewrite EL2 in Hin. apply in_app_or in Hin.
    assert (Hin' : In (ent_of_rec r) (ents L0)).
    { destruct Hin as [?|Hin]; auto. rewrite EL0. auto. }
    unfold ents in Hin'. rewrite in_map_iff in Hin'. destruct Hin' as (r' & Er & Hr').
    assert (F2 := hi_rec _ _ _ _ H2). assert (F0 := hi_rec _ _ _ _ H0). rewrite Forall_forall in F2, F0.
    apply ent_inj in Er; auto. subst. auto.
Qed.

(** * Crashes and interleavings *)

Lemma evs_visible id_size sort_size evs :
  ok_conf id_size sort_size -> Forall ok_ev evs -> len (ideal_evs evs) < 2 ^ 38 ->
  exists y l, sys_run id_size sort_size (mkSys ifs_empty []) evs = Ok y /\
    lookup (y_fs y) None = Ok l /\ (forall e, In e l <-> In e (ideal_evs evs)) /\
    (forall pc, In pc (y_pc y) -> pc <> HAbort).
Proof.
  intros Hc Ho Hn. destruct (hist_evs id_size sort_size evs Hc Ho Hn) as (y & L & S & I & E & H & EL).
  destruct (lookup_all_set _ _ _ _ H) as (l & El & Hl).
  exists y, l. conjs; auto.
  - intros e. rewrite <- EL. apply Hl.
  - intros pc Hin ->. apply In_nth_error in Hin. destruct Hin as [k Hk].
    apply (hi_pc _ _ _ _ H k HAbort Hk).
Qed.

Lemma evs_recover id_size sort_size evs :
  ok_conf id_size sort_size -> Forall ok_ev evs -> len (ideal_evs evs) < 2 ^ 38 ->
  exists y st l, sys_run id_size sort_size (mkSys ifs_empty []) (evs ++ [ECrash]) = Ok y /\
    IDX_Resort sort_size (y_fs y) = Ok st /\ lookup st None = Ok l /\
    (forall e, In e l <-> In e (ideal_evs evs)) /\
    f_app st = None /\ f_hold st = false /\ (f_app (y_fs y) <> None -> f_hk st = None).
Proof.
  intros Hc Ho Hn.
  destruct (hist_evs id_size sort_size (evs ++ [ECrash]) Hc) as (y & L & S & I & E & H & EL).
  { apply Forall_app; split; auto. repeat constructor. }
  { rewrite ideal_evs_app, app_nil_r. auto. }
  rewrite ideal_evs_app, app_nil_r in EL.
  assert (Hlen : len L = len (ideal_evs evs)).
  { rewrite <- EL. unfold ents, len. rewrite map_length. auto. }
  assert (Hy : exists fs, y = mkSys (unhold fs) []).
  { clear - E. revert E. generalize (mkSys ifs_empty []). induction evs as [|e evs IH]; intros y0 E.
    - cbn [app sys_run sys_step bind] in E. injection E as <-. eauto.
    - cbn [app sys_run] in E. destruct (sys_step id_size sort_size y0 e) as [y1| | |] eqn:E1; cbn [bind] in E; try discriminate.
      eapply IH; eauto. }
  destruct Hy as [fs ->].
  destruct Hc as (Hc1 & Hc2 & Hc3). cbn [y_fs].
  destruct (resort_ok sort_size L (unhold fs) S I H) as (st' & S' & E' & H' & Ea & Eh & Ehold & _); auto; try lia.
  { unfold small_hist. lia. }
  destruct (lookup_all_set _ _ _ _ H') as (l & El & Hl). cbn [y_fs] in El.
  exists (mkSys (unhold fs) []), st', l. conjs; auto.
  - intros e. rewrite <- EL. apply Hl.
  - intros Hne. destruct Eh as [X|[X _]]; [auto|]. exfalso. apply Hne. exact X.
Qed.

Lemma evs_mutex id_size sort_size evs :
  ok_conf id_size sort_size -> Forall ok_ev evs -> len (ideal_evs evs) < 2 ^ 38 ->
  exists y, sys_run id_size sort_size (mkSys ifs_empty []) evs = Ok y /\
    (forall j k p q, nth_error (y_pc y) j = Some p -> nth_error (y_pc y) k = Some q ->
       working p -> working q -> j = k) /\
    (forall j k p, nth_error (y_pc y) j = Some p -> working p -> nth_error (y_pc y) k = Some HHold ->
       sys_step id_size sort_size y (EStep k) = Ok (mkSys (y_fs y) (set_nth k HDone (y_pc y)))).
Proof.
  intros Hc Ho Hn. destruct (hist_evs id_size sort_size evs Hc Ho Hn) as (y & L & S & I & E & H & EL).
  assert (W : forall p, working p -> crit p = true).
  { intros p Hp. destruct p; simpl in *; auto; contradiction. }
  exists y. conjs; auto.
  - intros. eapply (hi_mx _ _ _ _ H); eauto.
  - intros j k p Hj Hp Hk. assert (Hh := hi_hold _ _ _ _ H j p Hj (W p Hp)).
    cbn [sys_step]. rewrite Hk. cbn [hk_step]. rewrite Hh. auto.
Qed.

Lemma race_done id_size sort_size evs :
  ok_conf id_size sort_size -> Forall ok_rev evs -> rinserts evs < 2 ^ 38 ->
  timely id_size sort_size (mkR (mkSys ifs_empty []) [] []) evs ->
  exists z l, rsys_run id_size sort_size (mkR (mkSys ifs_empty []) [] []) evs = Ok z /\
    lookup (y_fs (z_sys z)) None = Ok l /\ (forall e, In e l <-> In e (z_done z)).
Proof.
  intros Hc Ho Hn Ht.
  destruct (rsys_run_inv id_size sort_size Hc evs [] (mkR (mkSys ifs_empty []) [] []) [] [] hinv_empty) as (z & L & S & I & E & H & EL); auto.
  { constructor. }
  destruct (lookup_all_set _ _ _ _ H) as (l & El & Hl).
  exists z, l. conjs; auto. rewrite EL. auto.
Qed.

Lemma reader_quiet id_size sort_size evs0 evs1 evs2 :
  ok_conf id_size sort_size -> Forall ok_ev (evs0 ++ evs1 ++ evs2) ->
  len (ideal_evs (evs0 ++ evs1 ++ evs2)) < 2 ^ 38 ->
  exists y0, sys_run id_size sort_size (mkSys ifs_empty []) evs0 = Ok y0 /\
  (no_unlink id_size sort_size y0 (evs1 ++ evs2) ->
  exists y1 y2 l, sys_run id_size sort_size y0 evs1 = Ok y1 /\ sys_run id_size sort_size y1 evs2 = Ok y2 /\
    lookup3 (y_fs y0) (y_fs y1) (y_fs y2) None = Ok l /\ incl (ideal_evs evs0) l).
Proof.
  intros Hc Ho Hn. apply Forall_app in Ho. destruct Ho as [Ho0 Ho].
  rewrite ideal_evs_app in Hn. unfold len in Hn. rewrite app_length in Hn.
  destruct (hist_evs id_size sort_size evs0 Hc Ho0 ltac:(unfold len; lia)) as (y & L & S & I & E & H & EL).
  exists y. split; auto. intros Hq.
  assert (Hlen : length L = length (ideal_evs evs0)). { rewrite <- EL. unfold ents. rewrite map_length. auto. }
  destruct (lookup3_quiet id_size sort_size L y S I evs1 evs2 Hc H) as (y1 & y2 & l0 & l & E1 & E2 & El0 & El & Hi); auto.
  { unfold len. lia. }
  exists y1, y2, l. conjs; auto. rewrite <- EL.
  destruct (lookup_all_set _ _ _ _ H) as (l1 & El1 & Hl1). rewrite El1 in El0. injection El0 as ->.
  intros e He. apply Hi, Hl1. auto.
Qed.

(** * Identifiers and records *)

Lemma valid_id_slash prefix id_size id nid :
  IDX_Valid_Id (prefix ++ [47]) id_size id = IdOk nid <-> good_id (prefix ++ [47]) id_size id nid.
Proof.
  apply valid_id_correct. intros H. apply Forall_app in H. destruct H as [_ H].
  apply Forall_cons_iff in H. destruct H. discriminate.
Qed.

Lemma record_order k1 f1 s1 o1 c1 k2 f2 s2 o2 c2 :
  ok_op (OInsert k1 f1 s1 o1 c1) -> ok_op (OInsert k2 f2 s2 o2 c2) ->
  pad 24 k1 <> pad 24 k2 ->
  exists r1 r2, idx_record k1 f1 s1 o1 c1 = Ok r1 /\ idx_record k2 f2 s2 o2 c2 = Ok r2 /\
    lex r1 r2 = lex (pad 24 k1) (pad 24 k2).
Proof.
  intros (A1 & A2 & A3 & A4 & A5) (B1 & B2 & B3 & B4 & B5) Hne.
  destruct (idx_record_ok k1 f1 s1 o1 c1) as (r1 & E1 & [L1 X1] & _ & T1); auto.
  destruct (idx_record_ok k2 f2 s2 o2 c2) as (r2 & E2 & [L2 X2] & _ & T2); auto.
  exists r1, r2. split; auto. split; auto.
  apply (f_equal e_key) in T1, T2. cbn [ideal e_key] in T1, T2.
  rewrite ent_key_hexs in T1 by (split; auto). rewrite ent_key_hexs in T2 by (split; auto).
  rewrite <- (firstn_skipn 12 r1), <- (firstn_skipn 12 r2) at 1.
  assert (LL : length (firstn 12 r1) = length (firstn 12 r2)) by (rewrite !firstn_length; lia).
  rewrite lex_app by auto. rewrite <- T1, <- T2 in *.
  rewrite hexs_lex; auto using isbytes_firstn.
  destruct (lex (firstn 12 r1) (firstn 12 r2)) eqn:E; auto.
  apply lex_eq in E. rewrite E in Hne. congruence.
Qed.

Lemma pad_long n s : (n <= length s)%nat -> pad n s = lower (firstn n s).
Proof.
  intros H. unfold pad, lower. rewrite firstn_app. rewrite map_length.
  replace (n - length s)%nat with O by lia. rewrite firstn_O, app_nil_r. apply firstn_map.
Qed.

Lemma readback id_size sort_size ops key flags silo offset cont :
  ok_conf id_size sort_size -> Forall ok_op ops -> Forall (fun o => o <> OResort) ops ->
  hexstr key -> 24 <= len key -> flags < 2 ^ 32 -> silo < 2 ^ 32 -> offset < 2 ^ 63 ->
  match cont with Some c => hexstr c /\ 8 <= len c | None => True end ->
  exists st st' l, run_ops id_size sort_size ifs_empty ops = Ok st /\
    IDX_Insert id_size st key flags silo offset cont = Ok st' /\
    lookup st None = Ok l /\
    lookup st' None = Ok (l ++ [mkEnt (lower (firstn 24 key)) flags silo offset
                                 match cont with Some c => lower (firstn 8 c) | None => repeat 48 8 end]).
Proof.
  intros Hc Ho Hn Hk H24 Hf Hs Hof Hct.
  assert (Hok : ok_op (OInsert key flags silo offset cont)).
  { cbn [ok_op]. conjs; auto. destruct cont; auto. apply Hct. }
  destruct (lookup_unsorted id_size sort_size ops None Hc Ho Hn I) as (st & l & E & El & keep & Ek & Hkeep).
  destruct (lookup_unsorted id_size sort_size (ops ++ [OInsert key flags silo offset cont]) None Hc) as (st' & l' & E' & El' & keep' & Ek' & Hkeep').
  { apply Forall_app; auto. } { apply Forall_app; split; auto. constructor; auto. discriminate. } { exact I. }
  assert (FT : forall (p : ixent -> bool) l, (forall e, In e l -> (p e = true <-> True)) -> filter p l = l).
  { clear. intros p l. induction l as [|x l IH]; intros H; auto. cbn [filter].
    assert (p x = true) by (apply (H x); [left|]; auto). rewrite H0, IH; auto.
    intros e He. apply H. right; auto. }
  rewrite FT in Ek by exact Hkeep. rewrite FT in Ek' by exact Hkeep'.
  rewrite run_ops_app, E in E'. cbn [bind run_ops run_op] in E'.
  destruct (IDX_Insert id_size st key flags silo offset cont) as [st1| | |] eqn:E1; try discriminate.
  cbn [bind] in E'. injection E' as <-.
  exists st, st1, l. conjs; auto. rewrite El', Ek'. rewrite ideal_ops_app, <- Ek. cbn [ideal_ops].
  f_equal. f_equal. f_equal. unfold ideal. rewrite pad_long by (unfold len in H24; lia). f_equal.
  destruct cont as [c|]; auto. destruct Hct as [_ Hct]. apply pad_long. unfold len in Hct. lia.
Qed.

(** * Witnesses *)

Definition wkey (s : String.string) : bytes := str s.

Definition w_one : list iop := [OInsert (wkey "400000000000000000000000000000aa") 1 7 1234 None; OResort].
Definition w_miss : bytes := wkey "400000000000000000000000000000aa".
Definition w_two : list iop :=
  [OInsert (wkey "7f0000000000000000000000000000aa") 1 7 1234 None;
   OInsert (wkey "800000000000000000000000000000aa") 1 7 5678 None; OResort].
Definition w_five : list iop :=
  [OInsert (wkey "7f0000000000000000000000000000aa") 1 7 1 None;
   OInsert (wkey "800000000000000000000000000000aa") 1 7 2 None;
   OInsert (wkey "900000000000000000000000000000aa") 1 7 3 None;
   OInsert (wkey "a00000000000000000000000000000aa") 1 7 4 None;
   OInsert (wkey "b00000000000000000000000000000aa") 1 7 5 None; OResort].

Lemma ok_conf_32 : ok_conf 32 4096.
Proof. unfold ok_conf. repeat split; try lia. Qed.

Ltac hexs_ok := repeat constructor.

Lemma w_one_ok : Forall ok_op w_one. Proof. hexs_ok. Qed.
Lemma w_two_ok : Forall ok_op w_two. Proof. hexs_ok. Qed.
Lemma w_five_ok : Forall ok_op w_five. Proof. hexs_ok. Qed.
Lemma w_miss_hex : hexstr w_miss. Proof. hexs_ok. Qed.

Lemma w_asked : asked (Some w_miss) (ideal w_miss 1 7 1234 None).
Proof. exists []. vm_compute. auto. Qed.

Lemma missed : exists id_size sort_size ops key st e,
  ok_conf id_size sort_size /\ Forall ok_op ops /\ hexstr key /\ len key = id_size /\
  run_ops id_size sort_size ifs_empty ops = Ok st /\
  In e (ideal_ops ops) /\ asked (Some key) e /\ lookup st (Some key) = Ok [].
Proof.
  exists 32, 4096, w_one, w_miss. eexists. exists (ideal w_miss 1 7 1234 None).
  split; [apply ok_conf_32|]. split; [apply w_one_ok|]. split; [apply w_miss_hex|].
  split; [auto|]. split; [vm_compute; reflexivity|].
  split; [left; auto|]. split; [apply w_asked|]. vm_compute. auto.
Qed.

Lemma missed_prefix : exists id_size sort_size ops key st e,
  ok_conf id_size sort_size /\ Forall ok_op ops /\ hexstr key /\ len key = 2 /\
  run_ops id_size sort_size ifs_empty ops = Ok st /\
  In e (ideal_ops ops) /\ asked (Some key) e /\ lookup st (Some key) = Ok [].
Proof.
  exists 32, 4096, w_one, (wkey "40"). eexists. exists (ideal w_miss 1 7 1234 None).
  split; [apply ok_conf_32|]. split; [apply w_one_ok|]. split; [hexs_ok|].
  split; [auto|]. split; [vm_compute; reflexivity|].
  split; [left; auto|]. split; [exists (repeat 48 22); reflexivity|]. vm_compute. reflexivity.
Qed.

Lemma phantom : exists id_size sort_size ops key st e,
  ok_conf id_size sort_size /\ Forall ok_op ops /\ hexstr key /\
  run_ops id_size sort_size ifs_empty ops = Ok st /\
  lookup st (Some key) = Ok [e] /\ ~ In e (ideal_ops ops).
Proof.
  exists 32, 4096, w_two, (wkey "4161"). eexists. eexists.
  split; [apply ok_conf_32|]. split; [apply w_two_ok|]. split; [hexs_ok|].
  split; [vm_compute; reflexivity|]. split; [vm_compute; reflexivity|].
  vm_compute. intros [H|[H|[]]]; discriminate.
Qed.

Lemma lookup_aborts : exists id_size sort_size ops key st,
  ok_conf id_size sort_size /\ Forall ok_op ops /\ hexstr key /\ len key = id_size /\
  run_ops id_size sort_size ifs_empty ops = Ok st /\
  (forall e, In e (ideal_ops ops) -> ~ asked (Some key) e) /\ lookup st (Some key) = Abort.
Proof.
  exists 32, 4096, w_five, w_miss. eexists.
  split; [apply ok_conf_32|]. split; [apply w_five_ok|]. split; [apply w_miss_hex|].
  split; [auto|]. split; [vm_compute; reflexivity|]. split; [|vm_compute; reflexivity].
  intros e He [rest Hr]. vm_compute in He. 
  repeat (destruct He as [<-|He]; [vm_compute in Hr; discriminate|]). contradiction.
Qed.

Definition w_race : list rev :=
  [RSys (EInsert (wkey "7f0000000000000000000000000000aa") 1 7 1 None);
   ROpen (wkey "b00000000000000000000000000000aa") 1 7 2 None;
   RSys EStart; RSys (EStep 0); RSys (EStep 0); RSys (EStep 0); RSys (EStep 0); RSys (EStep 0);
   RSys (EStep 0); RSys (EStep 0); RSys (EStep 0); RSys (EStep 0); RWrite 0].

Lemma insert_lost : exists id_size sort_size evs z l e,
  ok_conf id_size sort_size /\ Forall ok_rev evs /\
  rsys_run id_size sort_size (mkR (mkSys ifs_empty []) [] []) evs = Ok z /\
  In e (z_done z) /\ lookup (y_fs (z_sys z)) None = Ok l /\ ~ In e l.
Proof.
  exists 32, 4096, w_race. eexists. eexists. exists (ideal (wkey "b00000000000000000000000000000aa") 1 7 2 None).
  split; [apply ok_conf_32|]. split; [hexs_ok|]. split; [vm_compute; reflexivity|].
  split; [vm_compute; auto|]. split; [vm_compute; reflexivity|]. vm_compute. intros [H|[]]. discriminate.
Qed.

Definition w_before : list hev := [EInsert (wkey "7f0000000000000000000000000000aa") 1 7 1 None].
Definition w_during : list hev := [EStart; EStep 0; EStep 0; EStep 0; EStep 0; EStep 0; EStep 0; EStep 0; EStep 0].

Lemma reader_misses : exists id_size sort_size evs0 evs1 evs2 y0 y1 y2,
  ok_conf id_size sort_size /\ Forall ok_ev (evs0 ++ evs1 ++ evs2) /\
  sys_run id_size sort_size (mkSys ifs_empty []) evs0 = Ok y0 /\
  sys_run id_size sort_size y0 evs1 = Ok y1 /\ sys_run id_size sort_size y1 evs2 = Ok y2 /\
  ideal_evs evs0 <> [] /\ lookup3 (y_fs y0) (y_fs y1) (y_fs y2) None = Ok [].
Proof.
  exists 32, 4096, w_before, w_during, []. eexists. eexists. eexists.
  split; [apply ok_conf_32|]. split; [hexs_ok|]. split; [vm_compute; reflexivity|].
  split; [vm_compute; reflexivity|]. split; [vm_compute; reflexivity|]. split; [discriminate|].
  vm_compute. reflexivity.
Qed.
