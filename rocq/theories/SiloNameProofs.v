(* Lemmas about SiloNameModel.v. *)
From Coq Require Import List NArith ZArith Bool Lia String.
From Coq Require Import ZifyBool ZifyNat ZifyN.
From Verif Require Import Base BaseLemmas SiloNameModel SiloNameSpec.
Ltac Zify.zify_post_hook ::= Z.div_mod_to_equations.
Open Scope string_scope.
Open Scope list_scope.
Open Scope N_scope.

(** * Decimal printing *)

Lemma undec_zeros k l : undec (repeat 48 k ++ l) = undec l.
Proof.
  unfold undec. rewrite fold_left_app. f_equal. induction k as [|k IH]; auto.
Qed.

Lemma undec_decpad k n : undec (decpad k n) = n.
Proof. unfold decpad. rewrite undec_zeros. apply undec_dec. Qed.

Lemma decpad_inj k n m : decpad k n = decpad k m -> n = m.
Proof. intros H. rewrite <- (undec_decpad k n), <- (undec_decpad k m), H. auto. Qed.

Lemma decpad_digits k n : Forall (fun c => is_digit c = true) (decpad k n).
Proof.
  unfold decpad. apply Forall_app. split; [|apply dec_digits].
  apply Forall_forall. intros x H. apply repeat_spec in H. subst. auto.
Qed.

Lemma digits_no c l : is_digit c = false -> Forall (fun c => is_digit c = true) l -> ~ In c l.
Proof. intros H Hl Hin. rewrite Forall_forall in Hl. apply Hl in Hin. congruence. Qed.

(** * Paths *)

(* splitting off the last component *)
Lemma last_comp (a b x y : bytes) c : ~ In c x -> ~ In c y -> a ++ c :: x = b ++ c :: y -> a = b /\ x = y.
Proof.
  revert b; induction a as [|h a IH]; intros [|k b] Hx Hy E; cbn [app] in E.
  - injection E as E. auto.
  - injection E as <- E. exfalso. apply Hx. rewrite E. apply in_or_app. right. left. auto.
  - injection E as -> E. exfalso. apply Hy. rewrite <- E. apply in_or_app. right. left. auto.
  - injection E as -> E. destruct (IH b Hx Hy E) as [-> ->]. auto.
Qed.

Lemma dec_small n : n < 10 -> dec n = [48 + n].
Proof.
  intros H. unfold dec. cbn [dec_aux]. replace (n <? 10) with true by (symmetry; apply N.ltb_lt; auto).
  rewrite N.mod_small by auto. auto.
Qed.

Lemma dec_two n : 10 <= n < 100 -> dec n = [48 + n / 10; 48 + n mod 10].
Proof.
  intros H. unfold dec.
  assert (exists k, N.to_nat (N.log2 n) = S k) as [k ->].
  { assert (2 <= n) by lia. assert (X := N.log2_le_mono 2 n H0). change (N.log2 2) with 1 in X.
    exists (pred (N.to_nat (N.log2 n))). lia. }
  cbn [dec_aux]. replace (n <? 10) with false by (symmetry; apply N.ltb_ge; lia).
  replace (n / 10 <? 10) with true by (symmetry; apply N.ltb_lt; lia).
  rewrite (N.mod_small (n / 10)) by lia. auto.
Qed.

Lemma numpart_fuel f : forall g lvl n, n < 100 ^ N.of_nat f -> n < 100 ^ N.of_nat g -> (0 < f)%nat -> (0 < g)%nat ->
  numpart_f f lvl n = numpart_f g lvl n.
Proof.
  induction f as [|f IH]; intros g lvl n Hf Hg F G; [lia|]. destruct g as [|g]; [lia|]. cbn [numpart_f].
  destruct (100 <=? n) eqn:E; auto. apply N.leb_le in E.
  rewrite !Nat2N.inj_succ, !N.pow_succ_r' in Hf, Hg.
  assert (Hf1 : n / 100 < 100 ^ N.of_nat f) by (apply N.div_lt_upper_bound; [discriminate|lia]).
  assert (Hg1 : n / 100 < 100 ^ N.of_nat g) by (apply N.div_lt_upper_bound; [discriminate|lia]).
  destruct f. { simpl in Hf1. assert (1 <= n / 100) by lia. rewrite N.pow_0_r in Hf1. lia. }
  destruct g. { simpl in Hg1. assert (1 <= n / 100) by lia. rewrite N.pow_0_r in Hg1. lia. }
  rewrite (IH (S g) (lvl + 1) (n / 100)); auto; lia.
Qed.

Lemma log_fuel n : n < 100 ^ N.of_nat (S (N.to_nat (N.log2 n))).
Proof.
  eapply N.lt_le_trans; [apply dec_fuel|]. apply N.pow_le_mono_l. lia.
Qed.

Lemma numpart_unfold lvl n : numpart lvl n =
  (if 100 <=? n then numpart (lvl + 1) (n / 100) else dec lvl ++ [47]) ++
  (if 0 <? lvl then decpad 2 (n mod 100) ++ [47] else []).
Proof.
  unfold numpart at 1. cbn [numpart_f]. destruct (100 <=? n) eqn:E; auto. apply N.leb_le in E. f_equal.
  assert (H := log_fuel n). rewrite Nat2N.inj_succ, N.pow_succ_r' in H.
  assert (H1 : n / 100 < 100 ^ N.of_nat (N.to_nat (N.log2 n))) by (apply N.div_lt_upper_bound; [discriminate|lia]).
  assert (H2 : (0 < N.to_nat (N.log2 n))%nat).
  { destruct (N.to_nat (N.log2 n)); [|apply Nat.lt_0_succ]. change (100 ^ N.of_nat 0) with 1 in H1.
    assert (1 <= n / 100) by (apply N.div_le_lower_bound; lia). lia. }
  apply numpart_fuel; auto using log_fuel, Nat.lt_0_succ.
Qed.

Lemma slash_dec l : ~ In 47 (dec l).
Proof. apply digits_no; auto using dec_digits. Qed.
Lemma slash_decpad k l : ~ In 47 (decpad k l).
Proof. apply digits_no; auto using decpad_digits. Qed.

(* the first component is the number of levels *)
Lemma numpart_head : forall k lvl n, n < 100 ^ N.of_nat k -> exists l rest, lvl <= l /\ numpart lvl n = dec l ++ 47 :: rest /\
     (n < 100 -> l = lvl) /\ (100 <= n -> lvl < l).
Proof.
  induction k as [|k IH]; intros lvl n Hn.
  - rewrite N.pow_0_r in Hn. exists lvl. rewrite numpart_unfold. replace (100 <=? n) with false by (symmetry; apply N.leb_gt; lia).
    eexists. split; [lia|]. split; [rewrite <- app_assoc; reflexivity|]. split; lia.
  - rewrite numpart_unfold. destruct (100 <=? n) eqn:E.
    + apply N.leb_le in E. rewrite Nat2N.inj_succ, N.pow_succ_r' in Hn.
      destruct (IH (lvl + 1) (n / 100)) as (l & rest & Hl & El & _). { apply N.div_lt_upper_bound; [discriminate|lia]. }
      rewrite El. exists l. eexists. split; [lia|]. split; [rewrite <- app_assoc; cbn [app]; reflexivity|]. split; lia.
    + apply N.leb_gt in E. exists lvl. eexists. split; [lia|]. split; [rewrite <- app_assoc; reflexivity|]. split; lia.
Qed.

Lemma first_comp : forall u v x y : bytes, ~ In 47 u -> ~ In 47 v -> u ++ 47 :: x = v ++ 47 :: y -> u = v.
Proof.
  induction u as [|h u IH]; intros [|k v] x y Hu Hv E; cbn [app] in E; auto.
  - injection E as <- E. exfalso. apply Hv. left; auto.
  - injection E as -> E. exfalso. apply Hu. left; auto.
  - injection E as -> E. f_equal. eapply IH; eauto; intros H; [apply Hu|apply Hv]; right; auto.
Qed.

Lemma first_dec a b (x y : bytes) : dec a ++ 47 :: x = dec b ++ 47 :: y -> a = b.
Proof. intros E. apply dec_inj. eapply first_comp; eauto using slash_dec. Qed.

Lemma numpart_inj : forall k lvl n m, n < 100 ^ N.of_nat k -> 0 < lvl ->
  numpart lvl n = numpart lvl m -> n = m.
Proof.
  induction k as [|k IH]; intros lvl n m Hn Hlvl E.
  - rewrite N.pow_0_r in Hn. assert (n = 0) by lia. subst. clear Hn.
    destruct (numpart_head (S (N.to_nat (N.log2 m))) lvl m (log_fuel m)) as (l & rest & Hl & El & H1 & H2).
    assert (E0 := E). rewrite numpart_unfold in E0. change (100 <=? 0) with false in E0. cbn iota in E0.
    rewrite El in E0. rewrite <- app_assoc in E0. cbn [app] in E0. apply first_dec in E0. subst l.
    assert (m < 100) by lia. rewrite (numpart_unfold lvl 0), (numpart_unfold lvl m) in E. change (100 <=? 0) with false in E.
    replace (100 <=? m) with false in E by (symmetry; apply N.leb_gt; auto).
    replace (0 <? lvl) with true in E by (symmetry; apply N.ltb_lt; auto).
    apply app_inv_head in E. apply app_inj_tail in E. destruct E as [E _]. apply decpad_inj in E.
    rewrite N.mod_small in E by lia. rewrite N.mod_small in E by lia. auto.
  - destruct (numpart_head (S k) lvl n Hn) as (l & rest & Hl & El & H1 & H2).
    destruct (numpart_head (S (N.to_nat (N.log2 m))) lvl m (log_fuel m)) as (l' & rest' & Hl' & El' & H1' & H2').
    assert (l = l'). { rewrite El, El' in E. apply first_dec in E. auto. } subst l'.
    rewrite (numpart_unfold lvl n), (numpart_unfold lvl m) in E.
    replace (0 <? lvl) with true in E by (symmetry; apply N.ltb_lt; auto).
    destruct (100 <=? n) eqn:En; destruct (100 <=? m) eqn:Em.
    + apply N.leb_le in En, Em.
      rewrite !app_assoc in E. apply app_inj_tail in E. destruct E as [E _].
      assert (LN : forall a, length (decpad 2 (a mod 100)) = 2%nat).
      { clear. intros a. unfold decpad. assert (a mod 100 < 100) by lia.
        destruct (N.lt_ge_cases (a mod 100) 10).
        - rewrite dec_small by auto. auto.
        - rewrite dec_two by lia. auto. }
      assert (EE : numpart (lvl + 1) (n / 100) = numpart (lvl + 1) (m / 100) /\ decpad 2 (n mod 100) = decpad 2 (m mod 100)).
      { assert (LL := f_equal (@List.length N) E). rewrite !app_length, !LN in LL.
        assert (X : length (numpart (lvl + 1) (n / 100)) = length (numpart (lvl + 1) (m / 100))) by lia.
        split.
        - apply (f_equal (firstn (length (numpart (lvl + 1) (n / 100))))) in E.
          rewrite firstn_app, firstn_all, Nat.sub_diag in E. rewrite X, firstn_app, firstn_all, Nat.sub_diag in E.
          rewrite !firstn_O, !app_nil_r in E. auto.
        - apply (f_equal (skipn (length (numpart (lvl + 1) (n / 100))))) in E.
          rewrite skipn_app, skipn_all, Nat.sub_diag in E. rewrite X, skipn_app, skipn_all, Nat.sub_diag in E.
          rewrite !skipn_O in E. auto. }
      destruct EE as [E1 E2]. apply decpad_inj in E2.
      rewrite Nat2N.inj_succ, N.pow_succ_r' in Hn.
      apply IH in E1; try lia.
    + apply N.leb_le in En. apply N.leb_gt in Em. specialize (H2 En). specialize (H1' Em). lia.
    + apply N.leb_gt in En. apply N.leb_le in Em. specialize (H1 En). specialize (H2' Em). lia.
    + apply N.leb_gt in En, Em.
      apply app_inv_head in E. apply app_inj_tail in E. destruct E as [E _]. apply decpad_inj in E.
      rewrite !N.mod_small in E by lia. auto.
Qed.

Lemma numpart0 n : numpart 0 n = if 100 <=? n then numpart 1 (n / 100) else [48; 47].
Proof. rewrite numpart_unfold. change (0 <? 0) with false. rewrite app_nil_r. auto. Qed.

Lemma numpart_block n m : numpart 0 n = numpart 0 m <-> n / 100 = m / 100.
Proof.
  rewrite !numpart0. destruct (100 <=? n) eqn:En; destruct (100 <=? m) eqn:Em;
    rewrite ?N.leb_le, ?N.leb_gt in En, Em; split; intros H.
  - apply (numpart_inj _ 1 _ _ (log_fuel _)); [lia|auto].
  - rewrite H; auto.
  - exfalso. destruct (numpart_head _ 1 (n / 100) (log_fuel _)) as (l & r & Hl & El & _).
    rewrite El in H. apply (first_dec l 0 r []) in H. lia.
  - exfalso. lia.
  - exfalso. destruct (numpart_head _ 1 (m / 100) (log_fuel _)) as (l & r & Hl & El & _).
    rewrite El in H. symmetry in H. apply (first_dec l 0 r []) in H. lia.
  - exfalso. lia.
  - rewrite !N.div_small by auto. auto.
  - auto.
Qed.

Lemma numpart_end : forall k lvl n, n < 100 ^ N.of_nat k -> exists l, numpart lvl n = l ++ [47].
Proof.
  induction k as [|k IH]; intros lvl n H; rewrite numpart_unfold.
  - rewrite N.pow_0_r in H. replace (100 <=? n) with false by (symmetry; apply N.leb_gt; lia).
    destruct (0 <? lvl); [rewrite app_assoc; eexists; reflexivity|rewrite app_nil_r; eexists; reflexivity].
  - destruct (0 <? lvl); [rewrite app_assoc; eexists; reflexivity|]. rewrite app_nil_r.
    destruct (100 <=? n) eqn:E; [|eexists; reflexivity]. apply IH.
    rewrite Nat2N.inj_succ, N.pow_succ_r' in H. apply N.div_lt_upper_bound; [discriminate|lia].
Qed.

Lemma base_slash b n (hold : bool) : ok_base b -> ~ In 47 (fmt_base b n ++ (if hold then str ".hold" else [])).
Proof.
  intros [H1 H2] H. unfold fmt_base in H. rewrite !in_app_iff in H.
  destruct H as [[H|[H|H]]|H]; auto.
  - eapply slash_decpad; eauto.
  - destruct hold; cbn in H; intuition discriminate.
Qed.

Fixpoint count (c : N) (l : bytes) : nat :=
  match l with [] => 0%nat | x :: r => ((if N.eqb x c then 1 else 0) + count c r)%nat end.
Lemma count_app c x y : count c (x ++ y) = (count c x + count c y)%nat.
Proof. induction x; simpl; auto. rewrite IHx. lia. Qed.
Lemma count_none c x : ~ In c x -> count c x = 0%nat.
Proof.
  induction x; simpl; auto. intros H. destruct (N.eqb_spec a c); [exfalso; auto|]. rewrite IHx; auto.
Qed.

Lemma filename_inj d b n m h1 h2 : ok_base b ->
  Silo_Filename d b n h1 = Silo_Filename d b m h2 -> n = m /\ h1 = h2.
Proof.
  intros Hb E. unfold Silo_Filename in E. apply app_inv_head in E.
  destruct (numpart_end _ 0 n (log_fuel n)) as [x Ex]. destruct (numpart_end _ 0 m (log_fuel m)) as [y Ey].
  rewrite Ex, Ey, <- !app_assoc in E. cbn [app] in E.
  apply last_comp in E; try (apply base_slash; auto). destruct E as [_ E].
  unfold fmt_base in E. rewrite <- !app_assoc in E. apply app_inv_head in E.
  assert (h1 = h2).
  { apply (f_equal (count 104)) in E. rewrite !count_app in E.
    rewrite !(count_none 104 (decpad _ _)) in E by (apply digits_no; auto using decpad_digits).
    destruct h1, h2; auto; exfalso; change (count 104 (str ".hold")) with 1%nat in E;
      change (count 104 []) with 0%nat in E; lia. }
  subst h2. apply app_inv_tail in E. apply decpad_inj in E. auto.
Qed.

Lemma dirname_block d n m : Silo_Dirname d n = Silo_Dirname d m <-> n / 100 = m / 100.
Proof.
  unfold Silo_Dirname. rewrite <- numpart_block. split; [apply app_inv_head|intros ->; auto].
Qed.

Lemma filename_dir d b n h : exists base, Silo_Filename d b n h = Silo_Dirname d n ++ base /\
  (ok_base b -> ~ In 47 base).
Proof.
  exists (fmt_base b n ++ (if h then str ".hold" else [])). unfold Silo_Filename, Silo_Dirname.
  rewrite app_assoc. split; auto using base_slash.
Qed.

(** * Iteration *)

Lemma upto_from k j : N.of_nat j <= k -> upto k = upto (N.of_nat j) ++ map N.of_nat (seq j (N.to_nat k - j)).
Proof.
  intros H. unfold upto. rewrite Nat2N.id. rewrite <- map_app. f_equal.
  replace (N.to_nat k) with (j + (N.to_nat k - j))%nat at 1 by lia. rewrite seq_app. auto.
Qed.

Section Iter.
Variable noent reg : bytes -> bool.
Variable stop : N -> bool.
Variable d : bytes.
Variable b : basename.
Let file u := Silo_Filename d b u false.

Lemma iter_visit fuel k : forall j acc, N.of_nat j <= k -> k < 2 ^ 32 ->
  noent (Silo_Dirname d k) = true ->
  (forall u, u < k -> noent (Silo_Dirname d u) = false) ->
  (N.to_nat k - j < fuel)%nat ->
  silo_iter_loop noent reg (visit stop) fuel d b (N.of_nat j) acc =
  Ok (acc ++ map (fun u => (file u, u))
        (until stop (filter (fun u => reg (file u)) (map N.of_nat (seq j (N.to_nat k - j))))), 0%Z).
Proof.
  induction fuel as [|fuel IH]; intros j acc Hj Hk H1 H2 Hf; [lia|].
  cbn [silo_iter_loop]. destruct (N.eq_dec (N.of_nat j) k) as [Heq|Hne].
  - rewrite Heq, H1. replace (N.to_nat k - j)%nat with 0%nat by lia. cbn. rewrite app_nil_r. auto.
  - rewrite H2 by lia. replace (N.to_nat k - j)%nat with (S (N.to_nat k - S j))%nat by lia.
    cbn [seq map filter]. fold (file (N.of_nat j)).
    assert (HS : (N.of_nat j + 1) mod 2 ^ 32 = N.of_nat (S j)).
    { rewrite N.mod_small; lia. }
    destruct (reg (file (N.of_nat j))) eqn:R.
    + cbn [visit until]. unfold visit at 1. destruct (stop (N.of_nat j)) eqn:St.
      * reflexivity.
      * change ((0 =? 0)%Z) with true. cbn iota. rewrite HS, IH by (auto; lia).
        rewrite <- app_assoc. reflexivity.
    + change ((0 =? 0)%Z) with true. cbn iota. rewrite HS, IH by (auto; lia). auto.
Qed.
End Iter.

Lemma iter_all noent reg stop dirname b k fuel : k < 2 ^ 32 ->
  noent (Silo_Dirname dirname k) = true ->
  (forall u, u < k -> noent (Silo_Dirname dirname u) = false) ->
  (N.to_nat k < fuel)%nat ->
  Silo_Iter noent reg (visit stop) fuel dirname b [] =
  Ok (map (fun u => (Silo_Filename dirname b u false, u))
        (until stop (filter (fun u => reg (Silo_Filename dirname b u false)) (upto k))), 0%Z).
Proof.
  intros Hk H1 H2 Hf. unfold Silo_Iter. change 0 with (N.of_nat 0) at 1.
  rewrite (iter_visit noent reg stop dirname b fuel k 0 []) by (auto; lia).
  rewrite Nat.sub_0_r. reflexivity.
Qed.

Lemma until_false l : until (fun _ => false) l = l.
Proof. induction l; simpl; auto. rewrite IHl; auto. Qed.

Lemma upto_in k u : In u (upto k) <-> u < k.
Proof.
  unfold upto. rewrite in_map_iff. split.
  - intros (x & <- & H). apply in_seq in H. lia.
  - intros H. exists (N.to_nat u). split; [apply N2Nat.id|]. apply in_seq. lia.
Qed.

Lemma upto_nodup k : NoDup (upto k).
Proof. unfold upto. apply FinFun.Injective_map_NoDup; [intros x y; lia|apply seq_NoDup]. Qed.

Lemma first_true (f : N -> bool) k : f k = true -> exists j, j <= k /\ f j = true /\ forall u, u < j -> f u = false.
Proof.
  intros H. assert (A : forall n, (exists j, j <= n /\ f j = true /\ forall u, u < j -> f u = false) \/
                          (forall u, u <= n -> f u = false)).
  { induction n as [|n IH] using N.peano_ind.
    - destruct (f 0) eqn:E; [left; exists 0; repeat split; auto; lia|right; intros u Hu; replace u with 0 by lia; auto].
    - destruct IH as [(j & Hj & F & L)|IH]; [left; exists j; repeat split; auto; lia|].
      destruct (f (N.succ n)) eqn:E.
      + left. exists (N.succ n). repeat split; auto; [lia|]. intros u Hu. apply IH. lia.
      + right. intros u Hu. destruct (N.eq_dec u (N.succ n)) as [->|]; auto. apply IH. lia. }
  destruct (A k) as [X|X]; auto. rewrite X in H by lia. discriminate.
Qed.

Lemma iter_visited noent reg dirname b k fuel : k < 2 ^ 32 ->
  noent (Silo_Dirname dirname k) = true -> (N.to_nat k < fuel)%nat ->
  exists l, Silo_Iter noent reg (visit (fun _ => false)) fuel dirname b [] = Ok (l, 0%Z) /\
    NoDup (map snd l) /\
    (forall u, In u (map snd l) <->
      reg (Silo_Filename dirname b u false) = true /\
      (forall v, v <= u -> noent (Silo_Dirname dirname v) = false)).
Proof.
  intros Hk H1 Hf. destruct (first_true (fun u => noent (Silo_Dirname dirname u)) k H1) as (j & Hj & Fj & Lj).
  eexists. split; [apply (iter_all _ _ _ _ _ j); auto; lia|].
  rewrite until_false, map_map. cbn [snd]. rewrite map_id. split; [apply NoDup_filter, upto_nodup|].
  intros u. rewrite filter_In, upto_in. split.
  - intros [Hu R]. split; auto. intros v Hv. apply Lj. lia.
  - intros [R A]. split; auto. destruct (N.lt_ge_cases u j); auto. rewrite A in Fj by auto. discriminate.
Qed.
