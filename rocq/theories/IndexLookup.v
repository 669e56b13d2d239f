(* Lemmas about bucket_seek and IDX_Iter on well-formed files. *)
From Coq Require Import List NArith ZArith Bool Lia Sorting.Sorted Sorting.Permutation.
From Coq Require Import ZifyBool ZifyNat ZifyN.
From Verif Require Import Base BaseLemmas IndexModel IndexSpec IndexProofs IndexBucket.
Ltac Zify.zify_post_hook ::= Z.div_mod_to_equations.
Open Scope N_scope.

Definition is_key (kp : bytes) : Prop := length kp = 12%nat /\ isbytes kp.

Lemma key_frac_bound kp : is_key kp -> frac_of kp < 2 ^ 64.
Proof.
  intros [L B]. unfold frac_of.
  assert (H := be_dec_bound (firstn 8 kp) (isbytes_firstn 8 kp B)).
  unfold len in H. rewrite firstn_length, L in H. exact H.
Qed.

(* record number, counted from the start of the file, where the scan starts
   (for keys outside bucket 0) *)
Definition seek_pos (bb nr : N) (R : list bytes) (kp : bytes) : Z :=
  (Z.of_N (predict (nr mod 2 ^ 32) (frac_of kp)) + off_spec bb nr (bucket_of bb kp) R)%Z.

Lemma off_spec_range bb nr b R : nr < 2 ^ 40 -> Forall is_rec R ->
  (- Z.of_N nr <= off_spec bb nr b R <= 2 ^ 31)%Z.
Proof.
  intros Hn HR. split; [|apply off_from_le].
  destruct (off_from_attained 0 bb nr b R (2 ^ 31)) as [H | (k & r & H1 & H2 & H3)]; unfold off_spec.
  - rewrite H. lia.
  - rewrite H3. apply nth_error_In in H1. rewrite Forall_forall in HR.
    assert (upos nr r <= nr) by (apply predict_le; auto; apply frac_bound; auto). lia.
Qed.

Lemma seek_ok f R bb nr kp : wf_file f R bb nr -> is_key kp ->
  bucket_seek kp f =
  if bucket_of bb kp =? 0 then Ok (2 ^ (bb + 3))
  else if (seek_pos bb nr R kp <? 0)%Z then Abort
  else Ok (Z.to_N (seek_pos bb nr R kp) * 32).
Proof.
  intros [[bp [I ->]] W1 W2 W3 W4 W5 W6] Hk. unfold bucket_seek.
  rewrite (header_word bp bb nr R) by (auto; lia). cbn [bind].
  destruct (header_fields bb nr ltac:(lia) W2) as (E1 & E2 & E3).
  rewrite E1, E2, E3, N.eqb_refl. cbn [guard bind].
  replace (bb =? 0) with false by (symmetry; apply N.eqb_neq; lia).
  replace (60 <? bb) with false by (symmetry; apply N.ltb_ge; lia). cbn [orb].
  fold (frac_of kp). fold (bucket_of bb kp).
  assert (Hb : bucket_of bb kp < 2 ^ bb).
  { unfold bucket_of. apply N.div_lt_upper_bound.
    - apply N.pow_nonzero; lia.
    - rewrite <- N.pow_add_r. replace (64 - bb + bb) with 64 by lia. apply key_frac_bound; auto. }
  unfold seek_pos. set (b := bucket_of bb kp) in *.
  destruct (0 <? b) eqn:E.
  2:{ apply N.ltb_ge in E. replace (b =? 0) with true by (symmetry; apply N.eqb_eq; lia). auto. }
  apply N.ltb_lt in E. replace (b =? 0) with false by (symmetry; apply N.eqb_neq; lia).
  replace b with (N.of_nat (N.to_nat b)) at 1 by lia.
  rewrite (read8_bucket bp bb nr R) by (auto; lia). cbn [bind].
  assert (Hlen : length (bkts bp) = N.to_nat (2 ^ bb)) by apply I.
  rewrite nth_set_nth by lia.
  replace (Nat.eqb (N.to_nat b) 0) with false by (symmetry; apply Nat.eqb_neq; lia).
  destruct I as [I1 I2 I3 I4]. rewrite (I4 b) by auto.
  assert (Hr := off_spec_range bb nr b R W2 W4).
  set (o := off_spec bb nr b R) in *.
  assert (Hu : predict (nr mod 2 ^ 32) (frac_of kp) <= nr).
  { etransitivity; [apply (predict_mono_nr _ nr)|apply predict_le]; auto using key_frac_bound.
    apply N.mod_le. discriminate. }
  set (u := predict (nr mod 2 ^ 32) (frac_of kp)) in *.
  rewrite Z2N.id by (apply Z.mod_pos_bound; reflexivity).
  rewrite Zplus_mod_idemp_r.
  change (2 ^ 40) with 1099511627776 in W2. change (2 ^ 31)%Z with 2147483648%Z in Hr.
  assert (Ht : to_i64 (Z.to_N ((Z.of_N u + o) mod 2 ^ 64)) = (Z.of_N u + o)%Z).
  { unfold to_i64. change (2 ^ 64)%Z with 18446744073709551616%Z. change (2 ^ 63) with 9223372036854775808.
    destruct (_ <? _) eqn:E63.
    - apply N.ltb_lt in E63. rewrite Z2N.id by lia. lia.
    - apply N.ltb_ge in E63. rewrite Z2N.id by lia. lia. }
  rewrite Ht.
  replace (Z.of_N u + o <? - 2 ^ 58)%Z with false by (symmetry; apply Z.ltb_ge; change (2 ^ 58)%Z with 288230376151711744%Z; lia).
  replace (2 ^ 58 <=? Z.of_N u + o)%Z with false by (symmetry; apply Z.leb_gt; change (2 ^ 58)%Z with 288230376151711744%Z; lia).
  cbn [orb]. auto.
Qed.

(* The header of a file cut into records *)
Definition hdr_chunks (f : bytes) (bb : N) : list bytes := firstn (hdrrecs bb) (chunks 32 f).

Lemma wf_chunks f R bb nr : wf_file f R bb nr ->
  chunks 32 f = hdr_chunks f bb ++ R /\ length (hdr_chunks f bb) = hdrrecs bb.
Proof.
  intros [[bp [I ->]] W1 W2 W3 W4 W5 W6].
  destruct (file_chunks bp bb nr R I ltac:(lia) W4) as [A B].
  unfold hdr_chunks. rewrite A. rewrite <- B at 1. rewrite firstn_app, Nat.sub_diag, firstn_all. simpl.
  rewrite app_nil_r. split; auto. rewrite <- B at 1.
  rewrite firstn_app, Nat.sub_diag, firstn_all. simpl. rewrite app_nil_r. auto.
Qed.

(* what is scanned *)
Lemma seek_chunks f R bb nr pos : wf_file f R bb nr ->
  chunks 32 (skipn (N.to_nat (pos * 32)) f) = skipn (N.to_nat pos) (hdr_chunks f bb ++ R).
Proof.
  intros W. replace (N.to_nat (pos * 32)) with (32 * N.to_nat pos)%nat by lia.
  rewrite chunks_skipn by lia. destruct (wf_chunks f R bb nr W) as [-> _]. auto.
Qed.

Lemma seek_chunks0 f R bb nr : wf_file f R bb nr ->
  chunks 32 (skipn (N.to_nat (2 ^ (bb + 3))) f) = R.
Proof.
  intros W. rewrite pow_hdr, hdr_mult by (destruct W; lia).
  rewrite chunks_skipn by lia. destruct (wf_chunks f R bb nr W) as [-> L].
  rewrite skipn_app, L, Nat.sub_diag, skipn_all2 by lia. auto.
Qed.

(** * No matching record is before the starting point *)

(* value of hex digits *)
Lemma hexs_prefix_frac kp r m : is_key kp -> is_rec r -> (m <= 8)%nat ->
  firstn m r = firstn m kp ->
  frac_of kp / 2 ^ (8 * N.of_nat (8 - m)) = frac_of r / 2 ^ (8 * N.of_nat (8 - m)).
Proof.
  intros [L B] [L' B'] Hm E.
  assert (G : forall l, isbytes l -> (8 <= length l)%nat ->
    be_dec (firstn 8 l) / 2 ^ (8 * N.of_nat (8 - m)) = be_dec (firstn m l)).
  { intros l Hl Hlen. rewrite <- (firstn_skipn m (firstn 8 l)).
    rewrite be_dec_app, firstn_firstn, Nat.min_l by lia.
    assert (Hb := be_dec_bound (skipn m (firstn 8 l)) (isbytes_skipn _ _ (isbytes_firstn _ _ Hl))).
    assert (Hl2 : len (skipn m (firstn 8 l)) = N.of_nat (8 - m)).
    { unfold len. rewrite skipn_length, firstn_length, Nat.min_l by lia. auto. }
    rewrite Hl2 in *. replace (2 ^ (8 * N.of_nat (8 - m))) with (256 ^ N.of_nat (8 - m)).
    2:{ rewrite N.pow_mul_r. auto. }
    rewrite N.add_comm, N.div_add by (apply N.pow_nonzero; lia).
    rewrite N.div_small by auto. auto. }
  unfold frac_of. rewrite !G by (auto; lia). congruence.
Qed.

(* nibble version: the first c hex digits agree *)
Lemma div_half f d : f < 256 -> d = 16 -> f / 16 = f / d.
Proof. intros; subst; auto. Qed.

Lemma nibbles_frac : forall l l' c, isbytes l -> isbytes l' -> length l = length l' ->
  (c <= 2 * length l)%nat ->
  firstn c (hexs l) = firstn c (hexs l') ->
  be_dec l / 16 ^ N.of_nat (2 * length l - c) = be_dec l' / 16 ^ N.of_nat (2 * length l - c).
Proof.
  intros l l' c B B' L Hc E.
  assert (G : forall x, isbytes x -> (c <= 2 * length x)%nat ->
     hexpad c (be_dec x / 16 ^ N.of_nat (2 * length x - c)) = firstn c (hexs x)).
  { clear. intros x Bx Hc. rewrite <- (hexpad_be_dec x (length x)) by auto.
    assert (P : forall d n c, (d = c + (d - c))%nat -> firstn c (hexpad d n) = hexpad c (n / 16 ^ N.of_nat (d - c))).
    { clear. intros d. induction d as [|d IH] ; intros n c H.
      - assert (c = 0)%nat by lia. subst. auto.
      - destruct (Nat.eq_dec c (S d)) as [->|Hne].
        + rewrite Nat.sub_diag. simpl N.of_nat. rewrite N.pow_0_r, N.div_1_r.
          apply firstn_all2. rewrite hexpad_length. lia.
        + cbn [hexpad]. rewrite firstn_app_le by (rewrite hexpad_length; lia).
          rewrite IH by lia. f_equal.
          replace (S d - c)%nat with (S (d - c)) by lia.
          rewrite Nat2N.inj_succ, N.pow_succ_r', N.div_div; auto. discriminate. apply N.pow_nonzero; discriminate. }
    symmetry. apply P. lia. }
  assert (Hh : hexpad c (be_dec l / 16 ^ N.of_nat (2 * length l - c)) =
               hexpad c (be_dec l' / 16 ^ N.of_nat (2 * length l - c))).
  { rewrite G by auto. rewrite L at 1. rewrite G by (auto; lia). auto. }
  assert (INJ : forall c n m, n < 16 ^ N.of_nat c -> m < 16 ^ N.of_nat c -> hexpad c n = hexpad c m -> n = m).
  { clear. induction c as [|c IH]; intros n m Hn Hm H.
    - simpl N.of_nat in *. rewrite N.pow_0_r in *. lia.
    - rewrite Nat2N.inj_succ, N.pow_succ_r' in *. cbn [hexpad] in H.
      apply app_inj_tail in H. destruct H as [H1 H2].
      apply IH in H1; try lia.
      assert (n mod 16 = m mod 16).
      { assert (C := hexdig_compare (n mod 16) (m mod 16) ltac:(lia) ltac:(lia)).
        rewrite H2, N.compare_refl in C. symmetry in C. apply N.compare_eq in C. auto. }
      lia. }
  assert (Bnd : forall x, isbytes x -> length x = length l -> be_dec x / 16 ^ N.of_nat (2 * length l - c) < 16 ^ N.of_nat c).
  { intros x Bx Lx. apply N.div_lt_upper_bound. { apply N.pow_nonzero; discriminate. }
    rewrite <- N.pow_add_r. replace (N.of_nat (2 * length l - c) + N.of_nat c) with (2 * N.of_nat (length l)) by lia.
    rewrite N.pow_mul_r. change (16 ^ 2) with 256. assert (Hb := be_dec_bound x Bx). unfold len in Hb. rewrite Lx in Hb. auto. }
  eapply INJ; [| |exact Hh]; apply Bnd; auto.
Qed.

Definition qlen (key : option bytes) : nat :=
  match key with Some k => Nat.min (length k) 24 | None => O end.

(* key_p is the smallest key with the digits asked for *)
Definition key_bin (key : option bytes) (kp : bytes) : Prop :=
  is_key kp /\ hexs kp = pad 24 (match key with Some k => k | None => [] end).

Lemma firstn_repeat_le {A} (x : A) n m : (n <= m)%nat -> firstn n (repeat x m) = repeat x n.
Proof. apply repeat_snoc_firstn. Qed.

(* frac(kp) is the multiple of 2^(64-4c) just below the frac of any matching record *)
Lemma asked_frac key kp r c : key_ok key -> key_bin key kp -> is_rec r ->
  askedb key (ent_of_rec r) = true -> c = Nat.min (qlen key) 16 ->
  frac_of kp = frac_of r / 2 ^ (64 - 4 * N.of_nat c) * 2 ^ (64 - 4 * N.of_nat c).
Proof.
  intros Hk [[L B] HH] [Lr Br] Ha Hc.
  set (l := firstn 8 kp). set (l' := firstn 8 r).
  assert (Ll : length l = 8%nat) by (unfold l; rewrite firstn_length; lia).
  assert (Ll' : length l' = 8%nat) by (unfold l'; rewrite firstn_length; lia).
  assert (Bl : isbytes l) by (apply isbytes_firstn; auto).
  assert (Bl' : isbytes l') by (apply isbytes_firstn; auto).
  (* digits of l: first c digits are those of r, the rest zero *)
  assert (D1 : firstn c (hexs l) = firstn c (hexs l')).
  { unfold l, l'. rewrite <- !hexs_firstn. rewrite !firstn_firstn, Nat.min_l by (unfold qlen in *; destruct key; lia).
    rewrite HH. destruct key as [k|].
    - unfold askedb in Ha. apply bytes_eqb_true in Ha. rewrite (ent_key_hexs r (conj Lr Br)) in Ha.
      rewrite pad_firstn by (unfold qlen in *; lia).
      apply (f_equal (firstn c)) in Ha. rewrite !firstn_firstn in Ha.
      rewrite !Nat.min_l in Ha by (unfold qlen in *; lia).
      rewrite <- Ha. rewrite <- (hexs_firstn 12 r).
      change (2 * 12)%nat with 24%nat. rewrite firstn_firstn, Nat.min_l by lia. auto.
    - simpl in Hc. subst c. auto. }
  assert (D2 : exists h, hexs l = firstn c (hexs l) ++ repeat 48 (16 - c) /\ h = tt).
  { exists tt. split; auto. unfold l. rewrite <- hexs_firstn. rewrite HH.
    change (2 * 8)%nat with 16%nat. unfold pad.
    set (k := match key with Some k => k | None => [] end).
    rewrite !firstn_firstn. change (Nat.min 16 24) with 16%nat. rewrite Nat.min_l by lia.
    assert (Hck : c = Nat.min (length k) 16).
    { unfold k. destruct key; simpl in Hc; subst; simpl; lia. }
    rewrite (firstn_app_le c) by (rewrite lower_length; lia).
    rewrite firstn_app, lower_length. rewrite firstn_repeat_le by lia.
    destruct (le_lt_dec (length k) 16).
    - rewrite Hck, Nat.min_l by lia. rewrite !firstn_all2 by (rewrite lower_length; lia). auto.
    - rewrite Hck, Nat.min_r by lia. rewrite Nat.sub_diag. f_equal.
      replace (16 - length k)%nat with 0%nat by lia. auto. }
  destruct D2 as (_ & D2 & _).
  assert (E := nibbles_frac l l' c Bl Bl' ltac:(lia) ltac:(lia) D1).
  rewrite Ll in E. change (2 * 8)%nat with 16%nat in E.
  assert (P : 2 ^ (64 - 4 * N.of_nat c) = 16 ^ N.of_nat (16 - c)).
  { change 16 with (2 ^ 4). rewrite <- N.pow_mul_r. f_equal. lia. }
  rewrite P. unfold frac_of. fold l l'. rewrite <- E.
  (* l is a multiple *)
  assert (Hmod : be_dec l mod 16 ^ N.of_nat (16 - c) = 0).
  { assert (Z : forall d x n, skipn (n - d) (hexpad n x) = repeat 48 d -> (d <= n)%nat -> x mod 16 ^ N.of_nat d = 0).
    { clear. induction d as [|d IH]; intros x n H Hn.
      - simpl. rewrite N.pow_0_r, N.mod_1_r. auto.
      - destruct n as [|n]; [lia|]. cbn [hexpad] in H.
        rewrite skipn_app in H. rewrite hexpad_length in H.
        replace (S n - S d - n)%nat with 0%nat in H by lia. simpl skipn at 2 in H.
        replace (repeat 48 (S d)) with (repeat 48 d ++ [48]) in H.
        2:{ rewrite <- repeat_cons. auto. }
        apply app_inj_tail in H. destruct H as [H1 H2].
        replace (S n - S d)%nat with (n - d)%nat in H1 by lia.
        apply IH in H1; [|lia].
        assert (x mod 16 = 0).
        { assert (C := hexdig_compare (x mod 16) 0 ltac:(lia) ltac:(lia)).
          rewrite H2 in C. change (hexdig 0) with 48 in C. rewrite N.compare_refl in C. symmetry in C. apply N.compare_eq in C. auto. }
        rewrite Nat2N.inj_succ, N.pow_succ_r', N.mod_mul_r by (try discriminate; apply N.pow_nonzero; discriminate).
        rewrite H1, H. lia. }
    apply (Z (16 - c)%nat (be_dec l) 16%nat); [|lia].
    rewrite hexpad16 by auto.
    rewrite D2. replace (16 - (16 - c))%nat with c by lia.
    rewrite skipn_app, skipn_all2.
    - simpl. rewrite firstn_length, hexs_length, Ll. replace (c - Nat.min c (2 * 8))%nat with 0%nat by lia. auto.
    - rewrite firstn_length. lia. }
  assert (Hnz : 16 ^ N.of_nat (16 - c) <> 0) by (apply N.pow_nonzero; discriminate).
  assert (Hdm := N.div_mod (be_dec l) (16 ^ N.of_nat (16 - c)) Hnz). rewrite Hmod in Hdm.
  rewrite N.add_0_r, N.mul_comm in Hdm. exact Hdm.
Qed.

Lemma asked_frac_le key kp r : key_ok key -> key_bin key kp -> is_rec r ->
  askedb key (ent_of_rec r) = true -> frac_of kp <= frac_of r.
Proof.
  intros. rewrite (asked_frac key kp r _ H H0 H1 H2 eq_refl).
  rewrite N.mul_comm. apply N.mul_div_le. apply N.pow_nonzero. discriminate.
Qed.

(* enough digits were given to fix the bucket, or that bucket is occupied *)
Definition bucket_known (bb : N) (R : list bytes) (key : option bytes) (kp : bytes) : Prop :=
  bucket_of bb kp = 0 \/ bb <= 4 * N.of_nat (Nat.min (qlen key) 16) \/
  (exists r0, In r0 R /\ bucket_of bb r0 = bucket_of bb kp).

Lemma div_bucket x a b : b <= a -> x / 2 ^ b / 2 ^ (a - b) = x / 2 ^ a.
Proof.
  intros. rewrite N.div_div by (apply N.pow_nonzero; discriminate).
  rewrite <- N.pow_add_r. f_equal. f_equal. lia.
Qed.

Lemma seek_not_past f R bb nr key kp i r : wf_file f R bb nr -> key_ok key -> key_bin key kp ->
  bucket_known bb R key kp -> bucket_of bb kp <> 0 ->
  nth_error R i = Some r -> askedb key (ent_of_rec r) = true ->
  (seek_pos bb nr R kp <= Z.of_nat i)%Z.
Proof.
  intros W Hk Hkb Hkn Hb Hi Ha. destruct W as [[bp [I ->]] W1 W2 W3 W4 W5 W6].
  assert (Hr : is_rec r) by (rewrite Forall_forall in W4; apply W4; eapply nth_error_In; eauto).
  assert (Hle := asked_frac_le key kp r Hk Hkb Hr Ha).
  assert (Hkey : is_key kp) by apply Hkb.
  assert (Hp : predict (nr mod 2 ^ 32) (frac_of kp) <= predict nr (frac_of kp)).
  { apply predict_mono_nr; auto using key_frac_bound. apply N.mod_le. discriminate. }
  unfold seek_pos.
  destruct (N.eq_dec (bucket_of bb r) (bucket_of bb kp)) as [Hsame|Hdiff].
  - assert (Hlow := off_from_lower 0 bb nr (bucket_of bb kp) R (2 ^ 31) i r Hi Hsame).
    fold (off_spec bb nr (bucket_of bb kp) R) in Hlow.
    assert (predict nr (frac_of kp) <= upos nr r) by (apply predict_mono; auto using frac_bound).
    lia.
  - (* the matching record is in a later bucket *)
    set (c := Nat.min (qlen key) 16) in *.
    assert (Hf := asked_frac key kp r c Hk Hkb Hr Ha eq_refl).
    assert (Hc : 4 * N.of_nat c < bb).
    { destruct (N.lt_ge_cases (4 * N.of_nat c) bb) as [H|H]; auto. exfalso. apply Hdiff.
      unfold bucket_of.
      rewrite <- (div_bucket (frac_of r) (64 - bb) (64 - 4 * N.of_nat c)) by lia.
      rewrite <- (div_bucket (frac_of kp) (64 - bb) (64 - 4 * N.of_nat c)) by lia.
      f_equal. rewrite Hf. rewrite N.div_mul by (apply N.pow_nonzero; discriminate). auto. }
    destruct Hkn as [Hkn | [Hkn | (r0 & Hin0 & Hb0)]]; [congruence|fold c in Hkn; lia|].
    destruct (In_nth_error _ _ Hin0) as [i0 Hi0].
    assert (Hr0 : is_rec r0) by (rewrite Forall_forall in W4; auto).
    (* kp is the first key of its bucket *)
    assert (Hmul : frac_of kp = bucket_of bb kp * 2 ^ (64 - bb)).
    { unfold bucket_of. rewrite Hf at 2.
      replace (64 - 4 * N.of_nat c) with ((bb - 4 * N.of_nat c) + (64 - bb)) by (unfold c; lia).
      rewrite N.pow_add_r, N.mul_assoc, N.div_mul by (apply N.pow_nonzero; discriminate).
      rewrite Hf at 1. rewrite <- N.mul_assoc. f_equal.
      - f_equal. rewrite <- N.pow_add_r. f_equal. lia.
      - rewrite <- N.pow_add_r. f_equal. lia. }
    assert (Hle0 : frac_of kp <= frac_of r0).
    { rewrite Hmul, <- Hb0. unfold bucket_of. rewrite N.mul_comm. apply N.mul_div_le. apply N.pow_nonzero. discriminate. }
    assert (Hlow := off_from_lower 0 bb nr (bucket_of bb kp) R (2 ^ 31) i0 r0 Hi0 Hb0).
    fold (off_spec bb nr (bucket_of bb kp) R) in Hlow.
    assert (predict nr (frac_of kp) <= upos nr r0) by (apply predict_mono; auto using frac_bound).
    (* i0 < i *)
    assert (Hlt : frac_of r0 < frac_of r).
    { assert (bucket_of bb kp <= bucket_of bb r) by (unfold bucket_of; apply N.div_le_mono; auto; apply N.pow_nonzero; discriminate).
      assert (Hbl : bucket_of bb r0 < bucket_of bb r) by lia.
      unfold bucket_of in Hbl.
      destruct (N.lt_ge_cases (frac_of r0) (frac_of r)); auto. exfalso.
      assert (frac_of r / 2 ^ (64 - bb) <= frac_of r0 / 2 ^ (64 - bb)) by (apply N.div_le_mono; auto; apply N.pow_nonzero; discriminate).
      lia. }
    assert (Hii : (i0 <= i)%nat).
    { destruct (le_lt_dec i0 i); auto. exfalso.
      assert (lexle r r0).
      { clear - W5 l Hi Hi0. revert i i0 l Hi Hi0. induction W5; intros i i0 l0 H1 H2; [destruct i; discriminate|].
        destruct i0; [lia|]. destruct i; simpl in *.
        - injection H1 as <-. rewrite Forall_forall in H. apply H. eapply nth_error_In; eauto.
        - eapply IHW5; [|eauto|eauto]. lia. }
      apply frac_mono in H0; auto. lia. }
    lia.
Qed.

(** * IDX_Iter on well-formed files *)

(* the seek does not land in the bucket table *)
Definition seek_clear (bb nr : N) (R : list bytes) (kp : bytes) : Prop :=
  bucket_of bb kp = 0 \/ (Z.of_nat (hdrrecs bb) <= seek_pos bb nr R kp)%Z.

Definition ents (R : list bytes) : list ixent := map ent_of_rec R.

Lemma filter_skip_none {A} (p : A -> bool) (l : list A) k :
  (forall i x, nth_error l i = Some x -> p x = true -> (k <= i)%nat) ->
  filter p (skipn k l) = filter p l.
Proof.
  revert l; induction k; intros l H; auto.
  destruct l as [|x l]; auto. simpl skipn. rewrite IHk.
  - simpl. destruct (p x) eqn:E; auto. specialize (H O x eq_refl E). lia.
  - intros i y Hi Hy. specialize (H (S i) y Hi Hy). lia.
Qed.

Lemma ss_skipn k l : StronglySorted lexle l -> StronglySorted lexle (skipn k l).
Proof.
  intros H; revert k; induction H; intros [|k]; simpl; try constructor; auto.
Qed.

Lemma Forall_skipn {A} (P : A -> Prop) k l : Forall P l -> Forall P (skipn k l).
Proof. intros H; revert k; induction H; intros [|k]; simpl; auto. Qed.

Lemma scan_sorted_file {S} (func : idx_cb S) f R bb nr key kp s :
  wf_file f R bb nr -> Forall rec_off_ok R -> key_ok key -> key_bin key kp ->
  seek_clear bb nr R kp -> bucket_known bb R key kp ->
  (let* pos := bucket_seek kp f in
   idx_scan func true key kp (qlen key) (chunks 32 (skipn (N.to_nat pos) f)) s)
  = Ok (run_cb func (filter (askedb key) (ents R)) s).
Proof.
  intros W Ho Hk Hkb Hcl Hkn.
  assert (Hkb' := Hkb). destruct Hkb' as [[L B] HH].
  rewrite (seek_ok f R bb nr) by (auto; split; auto).
  assert (W4 := wf_rec _ _ _ _ W). assert (W5 := wf_sorted _ _ _ _ W).
  destruct (bucket_of bb kp =? 0) eqn:E.
  - cbn [bind]. rewrite (seek_chunks0 f R bb nr W).
    apply scan_sorted; auto.
  - apply N.eqb_neq in E. destruct Hcl as [Hcl|Hcl]; [congruence|].
    replace (seek_pos bb nr R kp <? 0)%Z with false by (symmetry; apply Z.ltb_ge; lia).
    cbn [bind]. rewrite (seek_chunks f R bb nr _ W).
    destruct (wf_chunks f R bb nr W) as [_ LH].
    rewrite skipn_app, skipn_all2 by lia. rewrite LH. simpl app.
    set (k := (N.to_nat (Z.to_N (seek_pos bb nr R kp)) - hdrrecs bb)%nat).
    rewrite scan_sorted; auto using ss_skipn, Forall_skipn.
    f_equal. f_equal. unfold ents.
    rewrite <- skipn_map. apply filter_skip_none. intros i e Hi He.
    rewrite nth_error_map in Hi. destruct (nth_error R i) as [r|] eqn:Er; [|discriminate].
    injection Hi as <-.
    assert (Hp := seek_not_past f R bb nr key kp i r W Hk Hkb Hkn E Er He). lia.
Qed.

(* state of the three files as lists of records *)
Definition sorted_ok (o : option bytes) (R : list bytes) : Prop :=
  o = None /\ R = [] \/ exists f bb nr, o = Some f /\ wf_file f R bb nr.
Definition plain_ok (o : option bytes) (R : list bytes) : Prop :=
  match o with None => R = [] | Some f => f = concat R end.

Record idx_ok (st : ifs) (S A H : list bytes) : Prop := {
  io_s : sorted_ok (f_sorted st) S;
  io_a : plain_ok (app_data st) A;
  io_h : plain_ok (hk_data st) H;
  io_rec : Forall is_rec (S ++ A ++ H);
  io_off : Forall rec_off_ok (S ++ A ++ H)
}.

(* conditions under which the scan of the sorted file is exact *)
Definition seek_fine (st : ifs) (R : list bytes) (key : option bytes) : Prop :=
  forall f bb nr kp, f_sorted st = Some f -> wf_file f R bb nr -> key_bin key kp ->
    seek_clear bb nr R kp /\ bucket_known bb R key kp.

Lemma run_cb_app {S} (func : idx_cb S) l1 l2 s :
  run_cb func (l1 ++ l2) s =
  let '(i, s') := run_cb func l1 s in
  if (i =? 0)%Z then run_cb func l2 s' else (i, s').
Proof.
  revert s; induction l1 as [|e l1 IH]; intros s.
  - simpl app. cbn [run_cb]. simpl. auto.
  - simpl app. cbn [run_cb]. destruct (func s e) as [i s'] eqn:E.
    destruct (i =? 0)%Z eqn:E0; auto. rewrite E0. auto.
Qed.

Definition no_files (st : ifs) : bool :=
  match f_sorted st, f_app st, f_hk st with None, None, None => true | _, _, _ => false end.

Lemma plain_chunks R f : plain_ok (Some f) R -> Forall is_rec R -> chunks 32 (skipn (N.to_nat 0) f) = R.
Proof. simpl. intros -> H. apply chunks_concat; [lia|apply recs_len; auto]. Qed.

Lemma iter_exact {S} (func : idx_cb S) st R A H key s :
  idx_ok st R A H -> key_ok key -> seek_fine st R key ->
  IDX_Iter func st key s =
  Ok (if no_files st then ((-1)%Z, s)
      else run_cb func (filter (askedb key) (ents (R ++ A ++ H))) s).
Proof.
  intros [I1 I2 I3 I4 I5] Hk Hf. unfold IDX_Iter.
  destruct (iter_key_ok key Hk) as (kp & cl & E & L & B & Hcl & HH). rewrite E. cbn [bind].
  assert (Hkb : key_bin key kp) by (repeat split; auto).
  apply Forall_app in I4; destruct I4 as [R1 R2]. apply Forall_app in R2; destruct R2 as [R2 R3].
  apply Forall_app in I5; destruct I5 as [O1 O2]. apply Forall_app in O2; destruct O2 as [O2 O3].
  assert (Hcl' : cl = qlen key) by (destruct key; auto).
  assert (PL : forall o X st0, plain_ok o X -> Forall is_rec X -> Forall rec_off_ok X ->
     iter_file func key kp cl false o st0 =
     Ok (match o with None => st0 | Some _ => run_cb func (filter (askedb key) (ents X)) (snd st0) end)).
  { intros o X st0 Hp Hx Hox. unfold iter_file. destruct o as [f|]; auto. cbn [bind].
    rewrite (plain_chunks X f Hp Hx). apply scan_unsorted; auto. }
  unfold ents in *. rewrite !map_app, !filter_app.
  set (fS := filter (askedb key) (map ent_of_rec R)) in *.
  set (fA := filter (askedb key) (map ent_of_rec A)) in *.
  set (fH := filter (askedb key) (map ent_of_rec H)) in *.
  assert (Sstep : iter_file func key kp cl true (f_sorted st) ((-1)%Z, s) =
     Ok (match f_sorted st with None => ((-1)%Z, s) | Some _ => run_cb func fS s end)).
  { unfold iter_file. destruct I1 as [[-> ->]|(f & bb & nr & Es & W)]; auto. rewrite Es.
    destruct (Hf f bb nr kp Es W Hkb) as [C1 C2]. rewrite Hcl'.
    change (snd ((-1)%Z, s)) with s. apply (scan_sorted_file func f R bb nr); auto. }
  rewrite Sstep. cbn [bind].
  assert (Hsn : f_sorted st = None -> fS = []).
  { intros Hn. unfold fS. destruct I1 as [[_ ->]|(f & bb & nr & Es & W)]; auto. congruence. }
  assert (Han : app_data st = None -> fA = []).
  { intros Hn. unfold fA. rewrite Hn in I2. simpl in I2. subst; auto. }
  assert (Hhn : hk_data st = None -> fH = []).
  { intros Hn. unfold fH. rewrite Hn in I3. simpl in I3. subst; auto. }
  assert (Eno : no_files st = match f_sorted st, app_data st, hk_data st with None, None, None => true | _, _, _ => false end).
  { unfold no_files, app_data, hk_data. destruct (f_sorted st), (f_app st), (f_hk st); auto. }
  rewrite Eno. unfold iter_next. 
  rewrite !run_cb_app.
  destruct (f_sorted st) as [fs|] eqn:Es.
  - destruct (run_cb func fS s) as [i s1] eqn:E1. cbn [fst].
    destruct (i =? 0)%Z eqn:Ei; auto.
    rewrite (PL (app_data st) A _ I2 R2 O2). cbn [bind snd].
    destruct (app_data st) as [fa|] eqn:Ea.
    + fold fA. rewrite run_cb_app. destruct (run_cb func fA s1) as [i2 s2] eqn:E2. cbn [fst].
      destruct (i2 =? 0)%Z eqn:Ei2; auto.
      rewrite (PL (hk_data st) H _ I3 R3 O3). cbn [snd]. fold fH.
      destruct (hk_data st) eqn:Eh; auto.
      rewrite Hhn by auto. simpl. apply Z.eqb_eq in Ei2. subst. auto.
    + rewrite Han by auto. simpl app.
      rewrite (PL (hk_data st) H _ I3 R3 O3). cbn [snd]. fold fH.
      destruct (hk_data st) eqn:Eh; auto.
      rewrite Hhn by auto. simpl. apply Z.eqb_eq in Ei. subst. auto.
  - rewrite Hsn by auto. cbn [run_cb]. cbn [Z.eqb].
    rewrite (PL (app_data st) A _ I2 R2 O2). cbn [bind snd].
    destruct (app_data st) as [fa|] eqn:Ea.
    + fold fA. rewrite run_cb_app. destruct (run_cb func fA s) as [i2 s2] eqn:E2. cbn [fst].
      destruct (i2 =? 0)%Z eqn:Ei2; auto.
      rewrite (PL (hk_data st) H _ I3 R3 O3). cbn [snd]. fold fH.
      destruct (hk_data st) eqn:Eh; auto.
      rewrite Hhn by auto. simpl. apply Z.eqb_eq in Ei2. subst. auto.
    + rewrite Han by auto. simpl app.
      rewrite (PL (hk_data st) H _ I3 R3 O3). cbn [snd]. fold fH.
      destruct (hk_data st) eqn:Eh; auto.
Qed.

Lemma run_cb_collect l acc : run_cb collect l acc = (0%Z, acc ++ l).
Proof.
  revert acc; induction l; intros; cbn [run_cb collect].
  - rewrite app_nil_r; auto.
  - simpl. rewrite IHl, <- app_assoc. auto.
Qed.

Lemma lookup_exact st R A H key :
  idx_ok st R A H -> key_ok key -> seek_fine st R key ->
  lookup st key = Ok (filter (askedb key) (ents (R ++ A ++ H))).
Proof.
  intros I Hk Hf. unfold lookup. rewrite (iter_exact collect st R A H) by auto. cbn [bind].
  rewrite run_cb_collect. unfold no_files.
  destruct (f_sorted st) eqn:Es; auto. destruct (f_app st) eqn:Ea; auto. destruct (f_hk st) eqn:Eh; auto.
  destruct I as [I1 I2 I3 _ _]. unfold app_data, hk_data in *. rewrite Ea in I2. rewrite Eh in I3. simpl in *.
  destruct I1 as [[_ ->]|(f & bb & nr & Es' & _)]; [|congruence]. subst. auto.
Qed.

Lemma askedb_asked key r : key_ok key -> is_rec r ->
  (askedb key (ent_of_rec r) = true <-> asked key (ent_of_rec r)).
Proof.
  intros Hk Hr. unfold askedb, asked. destruct key as [k|]; [|tauto].
  rewrite bytes_eqb_true, (ent_key_hexs r Hr).
  assert (Lh : length (hexs (firstn 12 r)) = 24%nat).
  { rewrite hexs_length, firstn_length. destruct Hr. lia. }
  split.
  - intros E. rewrite <- E. exists (skipn (Nat.min (length k) 24) (hexs (firstn 12 r))).
    symmetry. apply firstn_skipn.
  - intros [rest E]. rewrite E. rewrite firstn_app_le.
    + apply firstn_all2. rewrite firstn_length, lower_length. lia.
    + rewrite firstn_length, lower_length. lia.
Qed.

(* NULL key: the seek goes to bucket 0 *)
Lemma seek_fine_null st R : seek_fine st R None.
Proof.
  intros f bb nr kp Es W [[L B] HH].
  assert (E : kp = repeat 0 12).
  { apply hexs_inj; auto. { repeat constructor; lia. } }
  assert (bucket_of bb kp = 0).
  { subst kp. unfold bucket_of, frac_of. simpl firstn.
    change (be_dec (repeat 0 8)) with 0. apply N.div_0_l. apply N.pow_nonzero; discriminate. }
  split; left; auto.
Qed.
