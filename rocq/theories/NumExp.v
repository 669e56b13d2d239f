(* Proofs about sizes with an exponent. *)
From Coq Require Import String.
From Coq Require Import ZifyBool ZifyNat ZifyN.
From Verif Require Import Base BaseLemmas HeaderSpec HeaderProofs SiloNameProofs NumModel NumSpec NumMain NumExpSpec.
Open Scope string_scope.
Open Scope list_scope.
Open Scope Z_scope.
Ltac Zify.zify_post_hook ::= Z.div_mod_to_equations.

Lemma exponent_digits r : match r with [] => True | c :: _ => is_digit c = false end ->
  forall a m, alld a -> 0 <= m -> m * 10 ^ zlen a + val a + 48 < 2 ^ 53 ->
  exponent (a ++ r) (Fin m 0) = (Fin (m * 10 ^ zlen a + val a) 0, r).
Proof.
  intros R. induction a as [|c a IH]; intros m A M B.
  - cbn [app]. change (zlen []) with 0. change (val []) with 0. change (10 ^ 0) with 1. replace (m * 1 + 0) with m by lia.
    destruct r as [|c r]; [reflexivity|]. cbn [exponent]. rewrite R. reflexivity.
  - inversion A as [|? ? D A']; subst. rewrite (push m c a D M) in B |- *. cbn [app exponent]. rewrite D.
    pose proof (le_pow (m * 10 + (Z.of_N c - 48)) a ltac:(unfold is_digit in D; lia)).
    rewrite digit_in_ok by (auto; lia). rewrite IH by (auto; unfold is_digit in D; lia). reflexivity.
Qed.

Section Num.
Variable pow10 : dbl -> dbl.
Hypothesis PO : pow_ok pow10.
Hypothesis PE : pow_exact pow10.

Lemma exp_read s neg n d e u k : size_exp s neg n d e u k -> (n + 48 < 2 ^ 53)%N -> (d < 300)%nat -> Z.abs e < 1000 ->
  VNUMpfx pow10 s = (dmul (Fin (if neg then - Z.of_N n else Z.of_N n) 0) (pow10 (dnum (e - Z.of_nat d))), u).
Proof.
  intros (s1 & g & x & y & s2 & S1 & G & X & Y & S2 & U & ->) B D EB. unfold VNUMpfx. apply unit_cases in U. pose proof (decimal_head _ _ _ X) as HX.
  rewrite skip_all; auto.
  2: { destruct x as [|c x]; [contradiction|]. unfold is_digit in HX. unfold is_space. destruct G as [([-> | ->] & _)|(-> & _)]; cbn [app str list_ascii_of_string List.map]; auto. lia. }
  rewrite (sign_read _ _ _ _ G HX).
  destruct Y as (c & h & w & eneg & C & H & (WN & WD) & -> & EV).
  assert (CE : c = 101%N \/ c = 69%N).
  { cbn [lower map] in C. injection C as C. apply lower_pick in C; [|vm_compute; split; discriminate]. exact C. }
  rewrite (decimal_read x n d _ X B) by (cbn [app stops]; destruct CE as [-> | ->]; split; [reflexivity|discriminate|reflexivity|discriminate]).
  replace (0 <? - Z.of_nat d) with false by lia. cbn [app exponent_of].
  replace ((c =? 101)%N || (c =? 69)%N) with true by (destruct CE as [-> | ->]; reflexivity).
  rewrite <- app_assoc.
  assert (HW : match w with [] => False | c :: _ => is_digit c = true \/ c = 46%N end) by (destruct w as [|c0 w]; [contradiction|]; inversion WD; auto).
  rewrite (sign_read _ _ _ _ H HW). destruct w as [|c0 w]; [contradiction|]. inversion WD as [|? ? D0 _]; subst. cbn [app]. rewrite D0.
  assert (VB : val (c0 :: w) < 1000) by (destruct eneg; lia).
  assert (EX : exponent (c0 :: w ++ s2 ++ u) (dnum 0) = (Fin (val (c0 :: w)) 0, s2 ++ u)).
  { change (c0 :: w ++ s2 ++ u) with ((c0 :: w) ++ s2 ++ u). unfold dnum.
    assert (ST : match s2 ++ u with [] => True | c :: _ => is_digit c = false end).
    { destruct S2 as [|c1 s2 SC S2]; cbn [app]; [|unfold is_space in SC; unfold is_digit; lia]. destruct u as [|c1 u]; tauto. }
    rewrite (exponent_digits _ ST (c0 :: w) 0 WD ltac:(lia)) by (change (2 ^ 53) with 9007199254740992; lia).
    f_equal. }
  rewrite EX.
  rewrite skip_all; auto.
  2: { destruct u as [|c1 u]; auto. tauto. }
  assert (B53 : 2 ^ 53 = 9007199254740992) by reflexivity.
  f_equal. f_equal.
  - unfold dnum, dmul. rewrite rnd_small by (destruct neg; lia). f_equal. destruct neg; lia.
  - f_equal. unfold dnum, dmul, dadd. cbn [Z.add]. rewrite rnd_small by (destruct eneg; lia). rewrite Z.min_id, Z.sub_diag. change (2 ^ 0) with 1.
    rewrite rnd_small by (destruct eneg; lia). f_equal. destruct eneg; lia.
Qed.

(* A text for every number and count of digits *)
Lemma plain neg n d u k : unit_of u k -> exists s, size s neg n d u k.
Proof.
  intros U. set (t := decpad (S d) n).
  assert (L : (d < List.length t)%nat).
  { unfold t, decpad. rewrite app_length, repeat_length. lia. }
  set (a := firstn (List.length t - d) t). set (b := skipn (List.length t - d) t).
  assert (T : a ++ b = t) by apply firstn_skipn.
  exists ([] ++ (if neg then str "-" else []) ++ (a ++ str "." ++ b) ++ [] ++ u).
  exists [], (if neg then str "-" else []), (a ++ str "." ++ b), [].
  split; [constructor|]. split; [destruct neg; [right|left]; auto|]. split; [|split; [constructor|split; auto]].
  exists a, b. rewrite T. split; [intros E; rewrite E in L; cbn in L; lia|]. split; [apply decpad_digits|].
  split; [rewrite dec_value_undec; symmetry; apply undec_decpad|]. split; [unfold b; rewrite skipn_length; lia|]. left. reflexivity.
Qed.

Lemma same_pfx p q : p <> [] -> q <> [] -> VNUMpfx pow10 p = VNUMpfx pow10 q -> VNUM_2bytes pow10 p = VNUM_2bytes pow10 q.
Proof. intros P Q E. unfold VNUM_2bytes. destruct p; [contradiction|]. destruct q; [contradiction|]. rewrite E. reflexivity. Qed.
Lemma exp_nonempty s neg n d e u k : size_exp s neg n d e u k -> s <> [].
Proof.
  intros (s1 & g & x & y & s2 & _ & _ & X & _ & _ & _ & ->) E. apply decimal_head in X. apply app_eq_nil in E. destruct E as (_ & E).
  apply app_eq_nil in E. destruct E as (_ & E). apply app_eq_nil in E. destruct E as (-> & _). contradiction.
Qed.
Lemma exp_unit s neg n d e u k : size_exp s neg n d e u k -> unit_of u k.
Proof. intros (s1 & g & x & y & s2 & _ & _ & _ & _ & _ & U & _). exact U. Qed.

(* moving the point *)
Lemma exp_moves s s' neg n d e u k d' : size_exp s neg n d e u k -> size s' neg n d' u k -> Z.of_nat d = e + Z.of_nat d' ->
  (n + 48 < 2 ^ 53)%N -> (d < 300)%nat -> (d' < 300)%nat -> VNUM_2bytes pow10 s = VNUM_2bytes pow10 s'.
Proof.
  intros S S' E B D D'. apply same_pfx; [eapply exp_nonempty; eauto|eapply size_nonempty; eauto|].
  rewrite (exp_read _ _ _ _ _ _ _ S B D) by lia. rewrite (pfx_read _ _ _ _ _ _ _ S' B D'). replace (e - Z.of_nat d) with (- Z.of_nat d') by lia. reflexivity.
Qed.
(* adding zeros *)
Lemma exp_zeros s s' neg n d e u k z : size_exp s neg n d e u k -> size s' neg (n * 10 ^ z) 0 u k -> e = Z.of_nat d + Z.of_N z ->
  (n * 10 ^ z + 48 < 2 ^ 53)%N -> (d < 300)%nat -> (z <= 15)%N -> VNUM_2bytes pow10 s = VNUM_2bytes pow10 s'.
Proof.
  intros S S' E B D ZB. assert (P : (1 <= 10 ^ z)%N) by (assert (X := N.pow_nonzero 10 z); lia).
  assert (B' : (n + 48 < 2 ^ 53)%N) by nia.
  apply same_pfx; [eapply exp_nonempty; eauto|eapply size_nonempty; eauto|].
  rewrite (exp_read _ _ _ _ _ _ _ S B' D) by lia. rewrite (pfx_read _ _ _ _ _ _ _ S' B) by lia. replace (e - Z.of_nat d) with (Z.of_N z) by lia.
  rewrite PE by lia. destruct PO as (P0 & _). change (- Z.of_nat 0) with 0. rewrite P0. f_equal. unfold dmul, dnum. cbn [Z.add].
  f_equal. rewrite N2Z.inj_mul, N2Z.inj_pow. change (Z.of_N 10) with 10. destruct neg; ring.
Qed.

Theorem exp_exact s n d e u k x : size_exp s false n d e u k -> (d < 300)%nat -> -300 < e - Z.of_nat d <= 15 ->
  (n * 10 ^ Z.to_N (e - Z.of_nat d) + 48 < 2 ^ 53)%N -> Z.of_nat d <= e \/ u <> [] ->
  (n * k * 10 ^ Z.to_N (e - Z.of_nat d) = x * 10 ^ Z.to_N (Z.of_nat d - e))%N -> (x < 2 ^ 49)%N -> VNUM_2bytes pow10 s = Ok (inl x).
Proof.
  intros S D E B DU X XB. pose proof (exp_unit _ _ _ _ _ _ _ S) as U. destruct (Z_le_gt_dec (Z.of_nat d) e) as [L|L].
  - set (z := Z.to_N (e - Z.of_nat d)) in *. destruct (plain false (n * 10 ^ z) 0 u k U) as (s' & S').
    rewrite (exp_zeros _ _ _ _ _ _ _ _ z S S') by (auto; lia). apply (size_exact _ PO _ _ _ _ _ _ S'); auto; [lia|].
    replace (Z.to_N (Z.of_nat d - e)) with 0%N in X by lia. change (10 ^ N.of_nat 0)%N with 1%N. change (10 ^ 0)%N with 1%N in X. nia.
  - set (d' := Z.to_nat (Z.of_nat d - e)). destruct (plain false n d' u k U) as (s' & S').
    replace (Z.to_N (e - Z.of_nat d)) with 0%N in * by lia. change (10 ^ 0)%N with 1%N in *. rewrite N.mul_1_r in *.
    rewrite (exp_moves _ _ _ _ _ _ _ _ d' S S') by (auto; lia). apply (size_exact _ PO _ _ _ _ _ _ S'); auto; [lia|right; destruct DU; [lia|auto]|].
    rewrite X. f_equal. f_equal. lia.
Qed.
End Num.

Lemma pow_ref_exact : pow_exact pow_ref.
Proof.
  intros z Z. unfold pow_ref, dnum. replace (0 <=? z) with true by lia. apply rnd_small.
  rewrite Z.abs_eq by (apply Z.pow_nonneg; lia). apply Z.le_lt_trans with (10 ^ 15); [apply Z.pow_le_mono_r; lia|reflexivity].
Qed.
Lemma exp_case : size_exp (str "1.5e3k") false 15 1 3 (str "k") (2 ^ 10) /\ size_exp (str "25E-1 MB") false 25 0 (-1) (str "MB") (2 ^ 20) /\
  VNUM_2bytes pow_ref (str "1.5e3k") = Ok (inl 1536000%N) /\ VNUM_2bytes pow_ref (str "25E-1 MB") = Ok (inl 2621440%N).
Proof.
  assert (D : forall a, forallb is_digit a = true -> Forall (fun c => is_digit c = true) a) by (intros a H; apply Forall_forall, forallb_forall; auto).
  split; [|split; [|split; vm_compute; reflexivity]].
  - exists [], [], (str "1.5"), (str "e3"), []. split; [constructor|]. split; [left; auto|]. split.
    { exists (str "1"), (str "5"). split; [discriminate|]. split; [apply D; reflexivity|]. split; [reflexivity|]. split; [reflexivity|]. left. reflexivity. }
    split; [|split; [constructor|split; [cbn; tauto|reflexivity]]].
    exists 101%N, [], (str "3"), false. split; [reflexivity|]. split; [left; auto|]. split; [split; [discriminate|apply D; reflexivity]|]. split; reflexivity.
  - exists [], [], (str "25"), (str "E-1"), (str " "). split; [constructor|]. split; [left; auto|]. split.
    { exists (str "25"), []. split; [discriminate|]. split; [apply D; reflexivity|]. split; [reflexivity|]. split; [reflexivity|]. right. auto. }
    split; [|split; [repeat constructor|split; [cbn; tauto|reflexivity]]].
    exists 69%N, (str "-"), (str "1"), true. split; [reflexivity|]. split; [right; auto|]. split; [split; [discriminate|apply D; reflexivity]|]. split; reflexivity.
Qed.
Lemma point_case : size_exp (str "25E-1 MB") false 25 0 (-1) (str "MB") (2 ^ 20) /\ size (str "2.5MB") false 25 1 (str "MB") (2 ^ 20).
Proof.
  split; [apply exp_case|]. exists [], [], (str "2.5"), []. split; [constructor|]. split; [left; auto|]. split; [|split; [constructor|split; [cbn; tauto|reflexivity]]].
  exists (str "2"), (str "5"). split; [discriminate|]. split; [repeat constructor|]. split; [reflexivity|]. split; [reflexivity|]. left. reflexivity.
Qed.
