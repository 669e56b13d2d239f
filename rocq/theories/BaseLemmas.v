(* Lemmas about Base.v. *)
From Coq Require Import List NArith ZArith Bool Lia Sorting.Sorted Sorting.Permutation.
From Coq Require Import ZifyBool ZifyNat ZifyN.
From Verif Require Import Base.
Ltac Zify.zify_post_hook ::= Z.div_mod_to_equations.
Open Scope N_scope.

Arguments N.mul : simpl never.
Arguments N.add : simpl never.
Arguments N.sub : simpl never.
Arguments N.div : simpl never.
Arguments N.modulo : simpl never.
Arguments N.pow : simpl never.
Arguments Nat.sub : simpl never.

Definition isbytes (l : bytes) := Forall (fun b => b < 256) l.

(** ** lex *)
Lemma lex_refl a : lex a a = Eq.
Proof. induction a; simpl; auto. rewrite N.compare_refl; auto. Qed.

Lemma lex_eq a b : lex a b = Eq <-> a = b.
Proof.
  split; [|intros ->; apply lex_refl].
  revert b; induction a as [|x a IH]; intros [|y b]; simpl; try discriminate; auto.
  destruct (x ?= y) eqn:E; try discriminate. intros H.
  apply N.compare_eq in E; subst. f_equal; auto.
Qed.

Lemma lex_antisym a b : lex b a = CompOpp (lex a b).
Proof.
  revert b; induction a as [|x a IH]; intros [|y b]; simpl; auto.
  rewrite (N.compare_antisym x y).
  destruct (x ?= y) eqn:E; simpl; auto.
Qed.

Lemma lex_trans_lt a b c : lex a b = Lt -> lex b c = Lt -> lex a c = Lt.
Proof.
  revert b c; induction a as [|x a IH]; intros [|y b] [|z c]; simpl; auto; try discriminate.
  destruct (x ?= y) eqn:E1; try discriminate.
  - apply N.compare_eq in E1; subst.
    destruct (y ?= z) eqn:E2; try discriminate; auto. intros; eauto.
  - intros _. destruct (y ?= z) eqn:E2; try discriminate; intros.
    + apply N.compare_eq in E2; subst. rewrite E1; auto.
    + replace (x ?= z) with Lt; auto. symmetry. apply N.compare_lt_iff.
      apply N.compare_lt_iff in E1, E2. eapply N.lt_trans; eauto.
Qed.

Definition lexle a b := lex a b <> Gt.

Lemma lexle_refl a : lexle a a.
Proof. unfold lexle; rewrite lex_refl; discriminate. Qed.

Lemma lexle_trans a b c : lexle a b -> lexle b c -> lexle a c.
Proof.
  unfold lexle. intros H1 H2.
  destruct (lex a b) eqn:E1; try congruence.
  - apply lex_eq in E1; subst; auto.
  - destruct (lex b c) eqn:E2; try congruence.
    + apply lex_eq in E2; subst. congruence.
    + rewrite (lex_trans_lt a b c); congruence.
Qed.

Lemma lexle_antisym a b : lexle a b -> lexle b a -> a = b.
Proof.
  unfold lexle. intros H1 H2. rewrite lex_antisym in H2.
  destruct (lex a b) eqn:E; simpl in *; try congruence.
  apply lex_eq; auto.
Qed.

Lemma lex_gt_le a b : lex a b = Gt -> lexle b a.
Proof. unfold lexle; intros H. rewrite lex_antisym, H; simpl; discriminate. Qed.

Lemma lexle_total a b : lexle a b \/ lexle b a.
Proof.
  unfold lexle. rewrite (lex_antisym a b).
  destruct (lex a b); simpl; try (left; discriminate); right; discriminate.
Qed.

Lemma lexb_eq_true a b : lexb_eq a b = true <-> a = b.
Proof.
  unfold lexb_eq. rewrite <- lex_eq. destruct (lex a b); split; auto; discriminate.
Qed.

Lemma bytes_eqb_true a b : bytes_eqb a b = true <-> a = b.
Proof. apply lexb_eq_true. Qed.

Lemma bytes_eqb_refl a : bytes_eqb a a = true.
Proof. apply bytes_eqb_true; auto. Qed.

Lemma bytes_eqb_false a b : bytes_eqb a b = false <-> a <> b.
Proof.
  destruct (bytes_eqb a b) eqn:E; split; intros; try discriminate; auto.
  - apply bytes_eqb_true in E. congruence.
  - intros ->. rewrite bytes_eqb_refl in E. discriminate.
Qed.

Lemma bytes_dec (a b : bytes) : {a = b} + {a <> b}.
Proof. apply list_eq_dec, N.eq_dec. Qed.

Lemma lex_app a b c d : List.length a = List.length c ->
  lex (a ++ b) (c ++ d) = match lex a c with Eq => lex b d | r => r end.
Proof.
  revert c; induction a as [|x a IH]; intros [|y c]; simpl; auto; try discriminate.
  intros H. destruct (x ?= y); auto.
Qed.

Lemma lexle_firstn n a b : lexle a b -> lexle (firstn n a) (firstn n b).
Proof.
  unfold lexle. revert a b; induction n; intros [|x a] [|y b]; simpl; try discriminate; try congruence.
  destruct (x ?= y); auto.
Qed.

(** ** big endian *)
Lemma be_enc_length k n : List.length (be_enc k n) = k.
Proof. revert n; induction k; intros; simpl; auto. rewrite app_length, IHk; simpl; lia. Qed.

Lemma be_enc_bytes k n : isbytes (be_enc k n).
Proof.
  revert n; induction k; intros; simpl; [constructor|].
  apply Forall_app; split; [apply IHk|]. constructor; auto. lia.
Qed.

Lemma be_dec_app a b : be_dec (a ++ b) = be_dec a * 256 ^ len b + be_dec b.
Proof.
  unfold be_dec. rewrite fold_left_app.
  generalize (fold_left (fun a0 b0 => a0 * 256 + b0) a 0) as x.
  induction b as [|y b IH] using rev_ind; intros x.
  - simpl. change (len (@nil N)) with 0. rewrite N.pow_0_r. lia.
  - rewrite !fold_left_app; simpl. rewrite IH.
    unfold len. rewrite app_length, Nat2N.inj_add.
    change (N.of_nat (List.length [y])) with 1. rewrite N.add_1_r, N.pow_succ_r'. lia.
Qed.

Lemma be_dec_snoc a x : be_dec (a ++ [x]) = be_dec a * 256 + x.
Proof. unfold be_dec. rewrite fold_left_app. auto. Qed.

Lemma be_dec_enc k n : be_dec (be_enc k n) = n mod 256 ^ N.of_nat k.
Proof.
  revert n; induction k; intros.
  - simpl. rewrite N.pow_0_r, N.mod_1_r. auto.
  - simpl be_enc. rewrite be_dec_snoc, IHk.
    rewrite Nat2N.inj_succ, N.pow_succ_r'.
    rewrite N.mod_mul_r; [lia|lia|]. apply N.pow_nonzero; lia.
Qed.

Lemma be_dec_bound l : isbytes l -> be_dec l < 256 ^ len l.
Proof.
  induction l as [|x l IH] using rev_ind; intros H.
  - unfold len, be_dec; simpl. rewrite N.pow_0_r. lia.
  - apply Forall_app in H; destruct H as [H1 H2]. inversion H2; subst.
    rewrite be_dec_snoc. unfold len. rewrite app_length, Nat2N.inj_add.
    change (N.of_nat (List.length [x])) with 1. rewrite N.add_1_r, N.pow_succ_r'.
    specialize (IH H1). unfold len in IH. lia.
Qed.

Lemma be_enc_dec l k : isbytes l -> List.length l = k -> be_enc k (be_dec l) = l.
Proof.
  revert l; induction k; intros l H L.
  - destruct l; simpl in *; auto; discriminate.
  - destruct l as [|x l] using rev_ind; [discriminate|]. clear IHl.
    apply Forall_app in H; destruct H as [H1 H2]. inversion H2; subst.
    rewrite app_length in L; simpl in L.
    simpl. rewrite be_dec_snoc.
    replace ((be_dec l * 256 + x) / 256) with (be_dec l) by lia.
    replace ((be_dec l * 256 + x) mod 256) with x by lia.
    rewrite IHk; auto. lia.
Qed.

Lemma be_dec_lex a b : isbytes a -> isbytes b -> List.length a = List.length b ->
  lex a b = (be_dec a ?= be_dec b).
Proof.
  revert b; induction a as [|x a IH]; intros [|y b] Ha Hb L; try discriminate; auto.
  inversion Ha; inversion Hb; subst. simpl in L; injection L as L.
  change (x :: a) with ([x] ++ a). change (y :: b) with ([y] ++ b).
  rewrite !be_dec_app.
  assert (Ba := be_dec_bound a ltac:(auto)). assert (Bb := be_dec_bound b ltac:(auto)).
  assert (Elen : len a = len b) by (unfold len; lia).
  rewrite Elen in *. set (p := 256 ^ len b) in *.
  change (be_dec [x]) with (0 * 256 + x). change (be_dec [y]) with (0 * 256 + y).
  rewrite !N.mul_0_l, !N.add_0_l. simpl.
  rewrite IH by auto.
  destruct (N.compare_spec x y).
  - subst. destruct (N.compare_spec (be_dec a) (be_dec b));
    symmetry; [apply N.compare_eq_iff | apply N.compare_lt_iff | apply N.compare_gt_iff]; lia.
  - symmetry. apply N.compare_lt_iff. nia.
  - symmetry. apply N.compare_gt_iff. nia.
Qed.

Lemma be_dec_inj a b : isbytes a -> isbytes b -> List.length a = List.length b ->
  be_dec a = be_dec b -> a = b.
Proof.
  intros. apply lex_eq. rewrite be_dec_lex; auto. rewrite N.compare_eq_iff; auto.
Qed.

Lemma be_dec_mono a b : isbytes a -> isbytes b -> List.length a = List.length b ->
  lexle a b -> be_dec a <= be_dec b.
Proof.
  intros Ha Hb L. unfold lexle. rewrite be_dec_lex by auto. intros H. exact H.
Qed.

(** ** lists *)
Lemma firstn_skipn_len {A} n (l : list A) :
  (List.length (firstn n l) = Nat.min n (List.length l))%nat.
Proof. apply firstn_length. Qed.

Lemma skipn_skipn' {A} a b (l : list A) : skipn a (skipn b l) = skipn (b + a) l.
Proof.
  revert l; induction b; intros; simpl; auto. destruct l; auto.
  rewrite skipn_nil; auto.
Qed.

Lemma isbytes_firstn n l : isbytes l -> isbytes (firstn n l).
Proof.
  intros H; revert n; induction H; intros [|n]; simpl; try constructor; auto.
  apply IHForall.
Qed.

Lemma isbytes_skipn n l : isbytes l -> isbytes (skipn n l).
Proof.
  intros H; revert n; induction H; intros [|n]; simpl; try constructor; auto.
Qed.

(** ** chunks *)
Lemma chunks_aux_enough k l : (0 < k)%nat -> forall f, (List.length l <= f)%nat ->
  chunks_aux f k l = chunks_aux (List.length l) k l.
Proof.
  intros Hk. remember (List.length l) as n eqn:En. revert l En.
  induction n as [n IH] using lt_wf_ind. intros l En f Hf.
  destruct l as [|x l].
  - simpl in En; subst. destruct f; auto.
  - simpl in En. destruct f; [lia|]. destruct n; [lia|]. simpl chunks_aux.
    f_equal.
    assert (List.length (skipn k (x :: l)) <= n)%nat
      by (rewrite skipn_length; simpl List.length; lia).
    rewrite (IH (List.length (skipn k (x :: l)))) by (auto; lia).
    symmetry. apply IH; auto; lia.
Qed.

Lemma chunks_nil k : chunks k [] = [].
Proof. auto. Qed.

Lemma chunks_cons k l : (0 < k)%nat -> l <> [] ->
  chunks k l = firstn k l :: chunks k (skipn k l).
Proof.
  intros Hk Hl. destruct l as [|x l]; [congruence|].
  unfold chunks at 1. simpl List.length. simpl chunks_aux. f_equal.
  apply chunks_aux_enough; auto. rewrite skipn_length; simpl List.length; lia.
Qed.

Lemma chunks_concat k (rs : list bytes) : (0 < k)%nat ->
  Forall (fun r => List.length r = k) rs -> chunks k (concat rs) = rs.
Proof.
  intros Hk H; induction H as [|r rs Hr H IH]; [auto|].
  simpl. rewrite chunks_cons; auto.
  - rewrite firstn_app, Hr, Nat.sub_diag, firstn_all2, app_nil_r by lia.
    rewrite skipn_app, Hr, Nat.sub_diag, skipn_all2 by lia. simpl. rewrite IH; auto.
  - destruct r; [simpl in Hr; lia|discriminate].
Qed.

Lemma concat_chunks k l : (0 < k)%nat -> concat (chunks k l) = l.
Proof.
  intros Hk. remember (List.length l) as n eqn:En. revert l En.
  induction n as [n IH] using lt_wf_ind. intros l En.
  destruct l as [|x l]; auto.
  rewrite chunks_cons by (auto; discriminate). simpl concat.
  rewrite (IH (List.length (skipn k (x :: l)))); auto.
  - apply firstn_skipn.
  - rewrite skipn_length. simpl in *. lia.
Qed.

Lemma chunks_full k l : (0 < k)%nat -> (exists m, List.length l = k * m)%nat ->
  Forall (fun r => List.length r = k) (chunks k l).
Proof.
  intros Hk [m Hm]. revert l Hm. induction m; intros l Hm.
  - destruct l; simpl in Hm; [constructor|lia].
  - rewrite chunks_cons; auto.
    + constructor. { rewrite firstn_length. lia. }
      apply IHm. rewrite skipn_length. lia.
    + destruct l; [simpl in Hm; lia|discriminate].
Qed.

Lemma chunks_skipn k l j : (0 < k)%nat -> chunks k (skipn (k * j) l) = skipn j (chunks k l).
Proof.
  intros Hk. revert l; induction j; intros l.
  - rewrite Nat.mul_0_r; auto.
  - destruct l as [|x l].
    + rewrite skipn_nil. rewrite chunks_nil, skipn_nil. auto.
    + rewrite (chunks_cons k (x :: l)) by (auto; discriminate). simpl skipn at 2.
      rewrite <- IHj. f_equal. rewrite skipn_skipn'. f_equal. lia.
Qed.

Lemma chunks_app k a b : (0 < k)%nat -> (exists m, List.length a = k * m)%nat ->
  chunks k (a ++ b) = chunks k a ++ chunks k b.
Proof.
  intros Hk [m Hm]. revert a Hm. induction m; intros a Hm.
  - destruct a; simpl in Hm; [auto|lia].
  - rewrite (chunks_cons k a), (chunks_cons k (a ++ b)); auto.
    + simpl. f_equal.
      * rewrite firstn_app. replace (k - List.length a)%nat with 0%nat by lia.
        simpl. apply app_nil_r.
      * rewrite skipn_app. replace (k - List.length a)%nat with 0%nat by lia. simpl.
        apply IHm. rewrite skipn_length; lia.
    + destruct a; [simpl in Hm; lia|discriminate].
    + destruct a; [simpl in Hm; lia|discriminate].
Qed.

Lemma chunks_length k l m : (0 < k)%nat -> (List.length l = k * m)%nat -> List.length (chunks k l) = m.
Proof.
  intros Hk. revert l; induction m; intros l Hm.
  - destruct l; simpl in *; auto; lia.
  - rewrite chunks_cons; auto.
    + simpl. rewrite IHm; auto. rewrite skipn_length; lia.
    + destruct l; [simpl in Hm; lia|discriminate].
Qed.

Lemma concat_length k (rs : list bytes) : Forall (fun r => List.length r = k) rs ->
  List.length (concat rs) = (k * List.length rs)%nat.
Proof. intros H; induction H; simpl List.length; simpl concat; [simpl; lia|]. rewrite app_length, IHForall, H. lia. Qed.

(** ** hex *)
Lemma hexpad_length k n : List.length (hexpad k n) = k.
Proof. revert n; induction k; intros; simpl; auto. rewrite app_length, IHk; simpl; lia. Qed.

Lemma to_lower_hexdig d : d < 16 -> to_lower (hexdig d) = hexdig d.
Proof.
  intros. unfold to_lower, hexdig, is_upper. destruct (d <? 10) eqn:E.
  - replace (65 <=? 48 + d) with false by (symmetry; apply N.leb_gt; lia). auto.
  - replace (87 + d <=? 90) with false by (symmetry; apply N.leb_gt; lia).
    rewrite andb_false_r. auto.
Qed.

Lemma to_lower_idem a : to_lower (to_lower a) = to_lower a.
Proof.
  unfold to_lower, is_upper. destruct ((65 <=? a) && (a <=? 90)) eqn:E.
  - replace (a + 32 <=? 90) with false by (symmetry; apply N.leb_gt; lia).
    rewrite andb_false_r. auto.
  - rewrite E. auto.
Qed.

Lemma lower_lower s : lower (lower s) = lower s.
Proof.
  unfold lower. rewrite map_map. apply map_ext. apply to_lower_idem.
Qed.

Lemma hexpad_lower k n : lower (hexpad k n) = hexpad k n.
Proof.
  revert n; induction k; intros; simpl; auto.
  unfold lower in *. rewrite map_app, IHk. simpl. rewrite to_lower_hexdig; auto. lia.
Qed.

Lemma hexdig_hex d : d < 16 -> is_hex (hexdig d) = true.
Proof.
  intros. unfold hexdig, is_hex, is_digit. destruct (d <? 10) eqn:E.
  - replace (48 <=? 48 + d) with true by (symmetry; apply N.leb_le; lia).
    replace (48 + d <=? 57) with true by (symmetry; apply N.leb_le; lia). auto.
  - replace (97 <=? 87 + d) with true by (symmetry; apply N.leb_le; lia).
    replace (87 + d <=? 102) with true by (symmetry; apply N.leb_le; lia).
    rewrite orb_true_r; auto.
Qed.

Lemma hexpad_hex k n : Forall (fun c => is_hex c = true) (hexpad k n).
Proof.
  revert n; induction k; intros; simpl; [constructor|].
  apply Forall_app; split; auto. constructor; auto. apply hexdig_hex; lia.
Qed.

(** ** decimal *)
Lemma dec_aux_app f n acc : dec_aux f n acc = dec_aux f n [] ++ acc.
Proof.
  revert n acc; induction f; intros; simpl; auto.
  destruct (n <? 10); auto. rewrite IHf, (IHf _ [_]), <- app_assoc. auto.
Qed.

Definition undec (l : bytes) : N := fold_left (fun a c => a * 10 + (c - 48)) l 0.

Lemma undec_dec_aux f n : n < 10 ^ N.of_nat f -> undec (dec_aux f n []) = n.
Proof.
  revert n; induction f; intros n H.
  - simpl in H. rewrite N.pow_0_r in H. simpl. unfold undec; simpl. lia.
  - simpl. destruct (n <? 10) eqn:E.
    + unfold undec; simpl. lia.
    + rewrite dec_aux_app. unfold undec. rewrite fold_left_app. fold (undec (dec_aux f (n/10) [])).
      rewrite IHf. simpl. lia.
      rewrite Nat2N.inj_succ, N.pow_succ_r' in H. lia.
Qed.

Lemma dec_fuel n : n < 10 ^ N.of_nat (S (N.to_nat (N.log2 n))).
Proof.
  rewrite Nat2N.inj_succ, N2Nat.id.
  destruct n as [|p]; [simpl; rewrite N.pow_1_r; lia|].
  destruct (N.log2_spec (N.pos p)) as [_ H]; [lia|].
  eapply N.lt_le_trans; [exact H|]. apply N.pow_le_mono_l. lia.
Qed.

Lemma undec_dec n : undec (dec n) = n.
Proof. apply undec_dec_aux, dec_fuel. Qed.

Lemma dec_inj n m : dec n = dec m -> n = m.
Proof. intros H. rewrite <- (undec_dec n), <- (undec_dec m), H. auto. Qed.

Lemma dec_aux_digits f n : Forall (fun c => is_digit c = true) (dec_aux f n []).
Proof.
  revert n; induction f; intros; simpl; [constructor|].
  destruct (n <? 10).
  - constructor; auto. unfold is_digit. lia.
  - rewrite dec_aux_app. apply Forall_app; split; auto. constructor; auto.
    unfold is_digit. lia.
Qed.

Lemma dec_digits n : Forall (fun c => is_digit c = true) (dec n).
Proof. apply dec_aux_digits. Qed.

Lemma dec_nonempty n : dec n <> [].
Proof.
  unfold dec. simpl. destruct (n <? 10); [discriminate|].
  rewrite dec_aux_app. intros H. apply app_eq_nil in H. destruct H; discriminate.
Qed.

(** ** case folding *)
Lemma caseeq_true a b : caseeq a b = true <-> lower a = lower b.
Proof. apply lexb_eq_true. Qed.

Lemma lower_length a : List.length (lower a) = List.length a.
Proof. apply map_length. Qed.
