(* Proofs about sizes with a suffix. *)
From Coq Require Import String.
From Coq Require Import ZifyBool ZifyNat ZifyN.
From Verif Require Import Base BaseLemmas HeaderSpec NumModel NumSpec.
Open Scope string_scope.
Open Scope list_scope.
Open Scope Z_scope.
Ltac Zify.zify_post_hook ::= Z.div_mod_to_equations.

(** * Rounding *)
Lemma rnd_small m : Z.abs m < 2 ^ 53 -> rnd m 0 = Fin m 0.
Proof.
  intros H. unfold rnd. destruct (Z.eq_dec m 0) as [->|N]; [reflexivity|].
  assert (B : Z.log2 (Z.abs m) < 53). { apply Z.log2_lt_pow2; lia. }
  replace (Z.log2 (Z.abs m) + 1 - 53 <=? 0) with true by lia.
  replace (m =? 0) with false by lia. replace (1024 <=? Z.log2 (Z.abs m) + 0) with false by lia. auto.
Qed.

Lemma rne_near m k : 0 < k -> 2 * Z.abs (rne m k * 2 ^ k - m) <= 2 ^ k.
Proof.
  intros K. unfold rne. assert (P : 0 < 2 ^ k) by (apply Z.pow_pos_nonneg; lia).
  pose proof (Z.div_mod m (2 ^ k) ltac:(lia)) as D. pose proof (Z.mod_pos_bound m (2 ^ k) P) as B.
  set (q := m / 2 ^ k) in *. set (r := m mod 2 ^ k) in *. clearbody q r. set (t := 2 ^ k) in *. clearbody t.
  destruct (2 * r <? t) eqn:A1; [nia|]. destruct (t <? 2 * r) eqn:A2; [nia|]. destruct (Z.even q); nia.
Qed.

(* Relative error of at most 2^-53 *)
Lemma rnd_near m e : 0 < m -> m < 2 ^ 500 -> e < 500 -> exists m' e', rnd m e = Fin m' e' /\ 0 < m' /\ e <= e' < e + 450 /\ Z.log2 m' <= 53 /\
  2 ^ 53 * Z.abs (m' * 2 ^ (e' - e) - m) <= m.
Proof.
  intros P B E. unfold rnd. rewrite (Z.abs_eq m) by lia. pose proof (Z.log2_spec m P) as (L1 & L2). pose proof (Z.log2_nonneg m) as L0.
  assert (L3 : Z.log2 m < 500) by (apply Z.log2_lt_pow2; lia). set (l := Z.log2 m) in *.
  destruct (l + 1 - 53 <=? 0) eqn:C.
  - replace (m =? 0) with false by lia. replace (1024 <=? Z.log2 (Z.abs m) + e) with false by (rewrite Z.abs_eq by lia; fold l; lia).
    exists m, e. split; [auto|]. split; [auto|]. split; [lia|]. split; [fold l; lia|]. replace (e - e) with 0 by lia. change (2 ^ 0) with 1. replace (m * 1 - m) with 0 by lia. cbn. lia.
  - set (k := l + 1 - 53) in *. assert (K : 0 < k) by lia. pose proof (rne_near m k K) as N.
    assert (T : 2 ^ l = 2 ^ 52 * 2 ^ k). { unfold k. rewrite <- Z.pow_add_r by lia. f_equal. lia. }
    assert (PK : 0 < 2 ^ k) by (apply Z.pow_pos_nonneg; lia).
    assert (T2 : 2 ^ Z.succ l = 2 ^ 53 * 2 ^ k). { unfold k. rewrite <- Z.pow_add_r by lia. f_equal. lia. }
    set (q := rne m k) in *. clearbody q.
    assert (Q1 : 2 ^ 52 <= q + 0). { change (2 ^ 52) with 4503599627370496 in *. nia. }
    assert (Q2 : q <= 2 ^ 53). { change (2 ^ 53) with 9007199254740992 in *. nia. }
    assert (QL : Z.log2 q <= 53). { rewrite <- (Z.log2_pow2 53) by lia. apply Z.log2_le_mono. auto. }
    replace (q =? 0) with false by lia. rewrite (Z.abs_eq q) by lia.
    replace (1024 <=? Z.log2 q + (e + k)) with false by lia.
    exists q, (e + k). split; [auto|]. split; [lia|]. split; [lia|]. split; [auto|]. replace (e + k - e) with k by lia. change (2 ^ 53) with (2 * 2 ^ 52). change (2 ^ 52) with 4503599627370496 in *. nia.
Qed.

(** * Reading digits *)
Lemma digit_in_ok m c : 0 <= m -> is_digit c = true -> m * 10 + (Z.of_N c - 48) + 48 < 2 ^ 53 -> digit_in (Fin m 0) c = Fin (m * 10 + (Z.of_N c - 48)) 0.
Proof.
  intros M D B. unfold is_digit in D. unfold digit_in, dchar, dnum, dmul, dadd.
  rewrite rnd_small by lia. cbn [Z.add]. rewrite !Z.min_id, !Z.sub_diag. change (2 ^ 0) with 1. rewrite !Z.mul_1_r.
  rewrite rnd_small by lia. rewrite !Z.min_id, !Z.sub_diag. change (2 ^ 0) with 1. rewrite rnd_small by lia. f_equal. lia.
Qed.

Definition alld (s : bytes) : Prop := Forall (fun c => is_digit c = true) s.
Notation val a := (Z.of_N (dec_value a)).
Notation zlen a := (Z.of_N (len (a : bytes))).
Lemma val_cons c r : is_digit c = true -> val (c :: r) = (Z.of_N c - 48) * 10 ^ zlen r + val r.
Proof. intros D. unfold is_digit in D. cbn [dec_value]. rewrite N2Z.inj_add, N2Z.inj_mul, N2Z.inj_pow, N2Z.inj_sub by lia. reflexivity. Qed.
Lemma len_cons' (c : N) r : zlen (c :: r) = zlen r + 1.
Proof. unfold len. cbn [List.length]. lia. Qed.
Lemma push m c r : is_digit c = true -> 0 <= m -> m * 10 ^ zlen (c :: r) + val (c :: r) = (m * 10 + (Z.of_N c - 48)) * 10 ^ zlen r + val r.
Proof. intros D M. rewrite (val_cons c r D), len_cons', Z.pow_add_r by lia. ring. Qed.
Lemma le_pow m r : 0 <= m -> m <= m * 10 ^ zlen r + val r.
Proof. intros M. assert (0 < 10 ^ zlen r) by (apply Z.pow_pos_nonneg; lia). nia. Qed.

Lemma digits0 r : forall a m e, alld a -> 0 <= m -> m * 10 ^ zlen a + val a + 48 < 2 ^ 53 ->
  mantissa (a ++ r) (Fin m 0) e 0 = mantissa r (Fin (m * 10 ^ zlen a + val a) 0) (match a with [] => e | _ => 0 end) 0.
Proof.
  induction a as [|c a IH]; intros m e A M B.
  - cbn [app]. change (zlen []) with 0. change (val []) with 0. change (10 ^ 0) with 1. f_equal. f_equal. lia.
  - inversion A as [|? ? D A']; subst. rewrite (push m c a D M) in B |- *. cbn [app mantissa]. rewrite D.
    pose proof (le_pow (m * 10 + (Z.of_N c - 48)) a ltac:(unfold is_digit in D; lia)).
    rewrite digit_in_ok by (auto; lia). cbn [Z.eqb]. rewrite IH by (auto; unfold is_digit in D; lia). f_equal. destruct a; auto.
Qed.

Lemma digits1 r : forall b m e ne, alld b -> 0 <= m -> ne < 0 -> m * 10 ^ zlen b + val b + 48 < 2 ^ 53 ->
  mantissa (b ++ r) (Fin m 0) e ne = mantissa r (Fin (m * 10 ^ zlen b + val b) 0) (match b with [] => e | _ => ne + 1 - zlen b end) (ne - zlen b).
Proof.
  induction b as [|c b IH]; intros m e ne A M NE B.
  - cbn [app]. change (zlen []) with 0. change (val []) with 0. change (10 ^ 0) with 1. f_equal; [f_equal|]; lia.
  - inversion A as [|? ? D A']; subst. rewrite (push m c b D M) in B |- *. cbn [app mantissa]. rewrite D.
    pose proof (le_pow (m * 10 + (Z.of_N c - 48)) b ltac:(unfold is_digit in D; lia)).
    rewrite digit_in_ok by (auto; lia). replace (ne =? 0) with false by lia. rewrite IH by (auto; unfold is_digit in D; lia).
    rewrite len_cons'. f_equal; [|lia]. destruct b; [change (zlen []) with 0|]; lia.
Qed.

(* Where the digits end *)
Definition stops (r : bytes) : Prop := match r with [] => True | c :: _ => is_digit c = false /\ c <> 46%N end.
Lemma mantissa_stop r m e ne : stops r -> mantissa r m e ne = (m, e, r).
Proof. destruct r as [|c r]; auto. intros (D & N). cbn [mantissa]. rewrite D. replace (c =? 46)%N with false by lia. auto. Qed.

Lemma zlen_app a b : zlen (a ++ b) = zlen a + zlen b.
Proof. unfold len. rewrite app_length. lia. Qed.
Lemma val_app a b : alld a -> val (a ++ b) = val a * 10 ^ zlen b + val b.
Proof.
  induction a as [|c a IH]; intros A; [cbn [app]; change (val []) with 0; lia|]. inversion A as [|? ? D A']; subst. cbn [app].
  rewrite !val_cons by auto. rewrite IH, zlen_app, Z.pow_add_r by (auto; lia). ring.
Qed.

Lemma decimal_read x n d r : decimal x n d -> (n + 48 < 2 ^ 53)%N -> stops r ->
  mantissa (x ++ r) (dnum 0) 1 0 = (Fin (Z.of_N n) 0, - Z.of_nat d, r).
Proof.
  intros (a & b & NE & A & -> & -> & F) B S. apply Forall_app in A. destruct A as (A1 & A2).
  pose proof (val_app a b A1) as V. assert (B' : val (a ++ b) + 48 < 2 ^ 53) by lia. pose proof (le_pow (val a) b ltac:(lia)) as LP. unfold dnum.
  assert (V0 : 0 * 10 ^ zlen a + val a = val a) by lia.
  destruct F as [->|(-> & ->)].
  - rewrite <- !app_assoc. rewrite digits0 by (auto; lia). rewrite V0. change (str "." ++ b ++ r) with (46%N :: b ++ r). cbn [mantissa].
    change (is_digit 46) with false. cbn [N.eqb Pos.eqb andb Z.eqb]. rewrite digits1 by (auto; lia).
    rewrite mantissa_stop by auto. rewrite <- V. f_equal. f_equal. unfold len. destruct b as [|c b]; [|lia].
    destruct a; [contradiction|]. reflexivity.
  - rewrite digits0 by (auto; lia). rewrite V0, mantissa_stop by auto. rewrite app_nil_r in *. f_equal. f_equal. destruct a; [contradiction|]. reflexivity.
Qed.

(** * Spaces, signs and suffixes *)
Lemma skip_all s r : spaces s -> match r with [] => True | c :: _ => is_space c = false end -> skip_space (s ++ r) = r.
Proof.
  intros S H. induction S as [|c s D S IH].
  - cbn [app]. destruct r as [|c r]; auto. cbn [skip_space]. rewrite H. auto.
  - cbn [app skip_space]. rewrite D. auto.
Qed.

Lemma decimal_head x n d : decimal x n d -> match x with [] => False | c :: _ => is_digit c = true \/ c = 46%N end.
Proof.
  intros (a & b & NE & A & _ & _ & F). destruct a as [|c a].
  - destruct F as [->|(-> & ->)]; [right; reflexivity|contradiction].
  - inversion A; subst. destruct F as [->|(-> & ->)]; left; auto.
Qed.

Lemma sign_read g neg x r : sign g neg -> match x with [] => False | c :: _ => is_digit c = true \/ c = 46%N end ->
  take_sign (g ++ x ++ r) = (dnum (if neg then -1 else 1), x ++ r).
Proof.
  intros S H. destruct x as [|c x]; [contradiction|]. unfold is_digit in H.
  destruct S as [([-> | ->] & ->)|(-> & ->)]; cbn [app take_sign]; [|reflexivity|reflexivity].
  replace (c =? 45)%N with false by lia. replace (c =? 43)%N with false by lia. auto.
Qed.

Lemma lower_pick c x : to_lower c = x -> (97 <= x <= 122)%N -> c = x \/ c = (x - 32)%N.
Proof. unfold to_lower, is_upper. destruct (_ && _)%bool eqn:E; lia. Qed.

Lemma unit_cases u k : unit_of u k -> match u with
  | [] => k = 1%N
  | c :: r => suffix u = (Z.of_N k, if (k =? 1)%N then u else r) /\
      match (if (k =? 1)%N then u else r) with [] => True | b :: r' => ((b =? 98) || (b =? 66))%N = true /\ r' = [] end /\
      is_space c = false /\ is_digit c = false /\ c <> 46%N /\ c <> 37%N /\ c <> 101%N /\ c <> 69%N
  end.
Proof.
  unfold unit_of. cbn [str list_ascii_of_string List.map In]. intros H.
  repeat (destruct H as [H|H]; [injection H as H <-|]); [..|destruct H];
    (destruct u as [|c [|b [|x u]]]; cbn [lower map] in H; try discriminate H; [..|]); try reflexivity.
  all: match type of H with
       | [?y] = [_] => injection H as H; symmetry in H; apply lower_pick in H; [|vm_compute; split; discriminate]; destruct H as [-> | ->]
       | [?y; ?z] = [_; _] => injection H as H H'; symmetry in H, H'; apply lower_pick in H, H'; [|vm_compute; split; discriminate ..]; destruct H as [-> | ->], H' as [-> | ->]
       end; vm_compute; repeat split; discriminate.
Qed.

Section Num.
Variable pow10 : dbl -> dbl.
Hypothesis PO : pow_ok pow10.

Lemma pfx_read s neg n d u k : size s neg n d u k -> (n + 48 < 2 ^ 53)%N -> (d < 300)%nat ->
  VNUMpfx pow10 s = (dmul (Fin (if neg then - Z.of_N n else Z.of_N n) 0) (pow10 (dnum (- Z.of_nat d))), u).
Proof.
  intros (s1 & g & x & s2 & S1 & G & X & S2 & U & ->) B D. unfold VNUMpfx. apply unit_cases in U. pose proof (decimal_head _ _ _ X) as HX.
  rewrite skip_all; auto.
  2: { destruct x as [|c x]; [contradiction|]. unfold is_digit in HX. unfold is_space. destruct G as [([-> | ->] & _)|(-> & _)]; cbn [app str list_ascii_of_string List.map]; auto. lia. }
  rewrite (sign_read _ _ _ _ G HX).
  assert (ST : stops (s2 ++ u)).
  { destruct S2 as [|c s2 SC S2]; cbn [app stops]; [|unfold is_space in SC; unfold is_digit; lia]. destruct u as [|c u]; cbn [stops]; tauto. }
  rewrite (decimal_read x n d (s2 ++ u) X B ST). replace (0 <? - Z.of_nat d) with false by lia.
  assert (EX : exponent_of (s2 ++ u) = Some (dnum 1, (dnum 0, s2 ++ u))).
  { unfold exponent_of. destruct S2 as [|c s2 SC S2]; cbn [app].
    - destruct u as [|c u]; auto. destruct U as (_ & _ & _ & _ & _ & _ & U1 & U2). replace (c =? 101)%N with false by lia. replace (c =? 69)%N with false by lia. auto.
    - unfold is_space in SC. replace (c =? 101)%N with false by lia. replace (c =? 69)%N with false by lia. auto. }
  rewrite EX. rewrite skip_all; auto.
  2: { destruct u as [|c u]; auto. tauto. }
  f_equal. f_equal.
  - unfold dnum, dmul. rewrite rnd_small by (destruct neg; lia). f_equal. destruct neg; lia.
  - f_equal. unfold dnum, dmul, dadd. cbn [Z.mul Z.add]. rewrite rnd_small by lia. rewrite Z.min_id, Z.sub_diag. change (2 ^ 0) with 1.
    rewrite rnd_small by lia. f_equal. lia.
Qed.

Lemma unit_pow u k : unit_of u k -> exists s, Z.of_N k = 2 ^ s /\ 0 <= s <= 50 /\ (u = [] -> s = 0) /\ ((k =? 1)%N = (s =? 0)).
Proof.
  unfold unit_of. cbn [In]. intros H. repeat (destruct H as [H|H]; [injection H as H <-|]); [..|destruct H].
  all: match goal with |- context[?k] => match k with Z.of_N ?n => let s := eval vm_compute in (Z.log2 (Z.of_N n)) in exists s end end.
  all: split; [reflexivity|]; split; [lia|]; split; [|reflexivity]; intros ->; try discriminate H; reflexivity.
Qed.

(* Exact products with powers of two *)
Lemma rnd_pow2 n s e : 0 < Z.abs n < 2 ^ 53 -> 0 <= s <= 50 -> e < 500 -> exists m' e', rnd (n * 2 ^ s) e = Fin m' e' /\ e <= e' /\ m' * 2 ^ (e' - e) = n * 2 ^ s.
Proof.
  intros N S E. unfold rnd. assert (P : 0 < 2 ^ s) by (apply Z.pow_pos_nonneg; lia). rewrite Z.abs_mul, (Z.abs_eq (2 ^ s)) by lia.
  rewrite Z.log2_mul_pow2 by lia. assert (L : 0 <= Z.log2 (Z.abs n) < 53). { split; [apply Z.log2_nonneg|]. apply Z.log2_lt_pow2; lia. }
  set (k := s + Z.log2 (Z.abs n) + 1 - 53).
  destruct (k <=? 0) eqn:K.
  - replace (n * 2 ^ s =? 0) with false by nia. rewrite Z.abs_mul, (Z.abs_eq (2 ^ s)) by lia. rewrite Z.log2_mul_pow2 by lia.
    replace (1024 <=? s + Z.log2 (Z.abs n) + e) with false by lia. exists (n * 2 ^ s), e. rewrite Z.sub_diag. change (2 ^ 0) with 1. split; auto. split; lia.
  - assert (T : n * 2 ^ s = n * 2 ^ (s - k) * 2 ^ k). { rewrite <- Z.mul_assoc, <- Z.pow_add_r by lia. f_equal. f_equal. lia. }
    assert (PK : 0 < 2 ^ k) by (apply Z.pow_pos_nonneg; lia). assert (PS : 0 < 2 ^ (s - k)) by (apply Z.pow_pos_nonneg; lia).
    assert (R : rne (n * 2 ^ s) k = n * 2 ^ (s - k)).
    { unfold rne. rewrite T, Z.mod_mul, Z.div_mul by lia. replace (2 * 0 <? 2 ^ k) with true by lia. auto. }
    rewrite R. replace (n * 2 ^ (s - k) =? 0) with false by nia. rewrite Z.abs_mul, (Z.abs_eq (2 ^ (s - k))) by lia. rewrite Z.log2_mul_pow2 by lia.
    replace (1024 <=? s - k + Z.log2 (Z.abs n) + (e + k)) with false by lia. exists (n * 2 ^ (s - k)), (e + k). split; auto. split; [lia|].
    rewrite T. f_equal. f_equal. lia.
Qed.

(* What follows the number *)
Lemma num_rest p fval u k : p <> [] -> VNUMpfx pow10 p = (fval, u) -> fval <> NaN -> unit_of u k ->
  VNUM_2bytes pow10 p = let* r := to_uintmax (match u with [] => fval | _ => dround (if (k =? 1)%N then fval else dmul fval (dnum (Z.of_N k))) end) in Ok (inl r).
Proof.
  intros NE E NN U. apply unit_cases in U. unfold VNUM_2bytes. destruct p as [|c0 p]; [contradiction|]. rewrite E. clear E NE.
  assert (G : (let (k0, q) := suffix u in
      let fval0 := if k0 =? 1 then fval else dmul fval (dnum k0) in
      if is_nil (drop_b q) then let* r := to_uintmax (dround fval0) in Ok (inl r) else Ok (inr (str "Invalid suffix"))) =
      match u with [] => Ok (inr []) | _ => let* r := to_uintmax (dround (if (k =? 1)%N then fval else dmul fval (dnum (Z.of_N k)))) in Ok (inl r) end \/ u = []).
  { destruct u as [|c u]; [auto|left]. destruct U as (-> & TL & _). replace (Z.of_N k =? 1) with ((k =? 1)%N) by lia.
    destruct (k =? 1)%N; [destruct TL as (TB & ->); cbn [drop_b]; rewrite TB; reflexivity|].
    destruct u as [|b u]; [reflexivity|]. destruct TL as (TB & ->). cbn [drop_b]. rewrite TB. reflexivity. }
  destruct u as [|c u]; [destruct fval; [reflexivity..|contradiction]|]. destruct G as [G|G]; [|discriminate].
  destruct U as (_ & _ & _ & _ & _ & N37 & _).
  assert (E37 : bytes_eqb (c :: u) [37%N] = false). { destruct (bytes_eqb (c :: u) [37%N]) eqn:Q; auto. apply bytes_eqb_true in Q. congruence. }
  cbn [is_nil]. rewrite E37. destruct fval; [exact G..|contradiction].
Qed.

Lemma size_nonempty s neg n d u k : size s neg n d u k -> s <> [].
Proof.
  intros (s1 & g & x & s2 & _ & _ & X & _ & _ & ->) E. apply decimal_head in X. apply app_eq_nil in E. destruct E as (_ & E).
  apply app_eq_nil in E. destruct E as (_ & E). apply app_eq_nil in E. destruct E as (-> & _). contradiction.
Qed.

Lemma size_unit s neg n d u k : size s neg n d u k -> unit_of u k.
Proof. intros (s1 & g & x & s2 & _ & _ & _ & _ & U & _). exact U. Qed.

Lemma to_int m e z : 0 <= e -> m * 2 ^ e = z -> to_uintmax (Fin m e) = if (0 <=? z) && (z <? 2 ^ 64) then Ok (Z.to_N z) else UB.
Proof. intros E <-. unfold to_uintmax. replace (0 <=? e) with true by lia. auto. Qed.

(** * Whole numbers *)
Lemma size_whole s neg n u k : size s neg n 0 u k -> (n + 48 < 2 ^ 53)%N ->
  VNUM_2bytes pow10 s = if (if neg then n =? 0 else n * k <? 2 ^ 64)%N then Ok (inl (n * k)%N) else UB.
Proof.
  intros S B. pose proof (size_unit _ _ _ _ _ _ S) as U. destruct (unit_pow _ _ U) as (t & KT & T & TU & K1).
  destruct PO as (P0 & _). pose proof (pfx_read _ _ _ _ _ _ S B ltac:(lia)) as R. change (- Z.of_nat 0) with 0 in R. rewrite P0 in R.
  set (z := if neg then - Z.of_N n else Z.of_N n) in *. assert (ZB : Z.abs z < 2 ^ 53) by (unfold z; destruct neg; lia).
  assert (F : dmul (Fin z 0) (dnum 1) = Fin z 0). { unfold dmul, dnum. cbn [Z.add]. rewrite Z.mul_1_r. apply rnd_small. auto. }
  rewrite F in R. rewrite (num_rest _ _ _ _ (size_nonempty _ _ _ _ _ _ S) R ltac:(discriminate) U).
  assert (G : exists m e, (match u with [] => Fin z 0 | _ => dround (if (k =? 1)%N then Fin z 0 else dmul (Fin z 0) (dnum (Z.of_N k))) end) = Fin m e /\
     0 <= e /\ m * 2 ^ e = z * Z.of_N k).
  { destruct u as [|c u].
    - exists z, 0. split; auto. split; [lia|]. apply unit_cases in U. subst k. reflexivity.
    - rewrite K1. destruct (t =? 0) eqn:T0.
      + exists z, 0. split; [reflexivity|]. split; [lia|]. rewrite Z.mul_1_r. rewrite KT. replace t with 0 by lia. change (2 ^ 0) with 1. lia.
      + unfold dmul, dnum. rewrite KT. destruct (Z.eq_dec z 0) as [Z0|Z0]; [rewrite Z0; exists 0, 0; split; [reflexivity|]; split; lia|].
        destruct (rnd_pow2 z t (0 + 0) ltac:(lia) T ltac:(lia)) as (m & e & -> & E & V). exists m, e. change (0 + 0) with 0 in *. rewrite Z.sub_0_r in V.
        unfold dround. replace (0 <=? e) with true by lia. auto. }
  destruct G as (m & e & -> & E & V). rewrite (to_int m e _ E V). assert (KP : 0 < Z.of_N k) by (rewrite KT; apply Z.pow_pos_nonneg; lia). unfold z. destruct neg.
  - destruct (n =? 0)%N eqn:N0.
    + replace n with 0%N by lia. reflexivity.
    + replace (0 <=? - Z.of_N n * Z.of_N k) with false by nia. reflexivity.
  - replace (0 <=? Z.of_N n * Z.of_N k) with true by nia. replace (Z.of_N n * Z.of_N k <? 2 ^ 64) with (n * k <? 2 ^ 64)%N by lia.
    destruct (n * k <? 2 ^ 64)%N; cbn [andb bind]; auto. f_equal. f_equal. lia.
Qed.

(** * Fractions *)
Lemma scale K x b c : 0 <= c -> K * Z.abs x <= b -> K * Z.abs (x * c) <= b * c.
Proof. intros C H. rewrite Z.abs_mul, (Z.abs_eq c), Z.mul_assoc by auto. apply Z.mul_le_mono_nonneg_r; auto. Qed.
Lemma size_frac s n d u k : size s false n d u k -> (n + 48 < 2 ^ 53)%N -> (0 < d < 300)%nat -> u <> [] -> Z.of_N (n * k) < 2 ^ 62 * 10 ^ Z.of_nat d ->
  exists r, VNUM_2bytes pow10 s = Ok (inl r) /\
    2 ^ 50 * Z.abs (2 * Z.of_N r * 10 ^ Z.of_nat d - 2 * Z.of_N (n * k)) <= 2 ^ 50 * 10 ^ Z.of_nat d + 2 * Z.of_N (n * k).
Proof.
  intros S B D NU RB. pose proof (size_unit _ _ _ _ _ _ S) as U. destruct (unit_pow _ _ U) as (t & KT & T & TU & K1).
  destruct PO as (_ & PD). destruct (PD d) as (pm & E & EP & E0 & PB & H1); [lia..|].
  pose proof (pfx_read _ _ _ _ _ _ S B ltac:(lia)) as R. cbv iota in R. rewrite EP in R. unfold dmul in R. cbn [Z.add] in R.
  assert (DP : 0 < 10 ^ Z.of_nat d) by (apply Z.pow_pos_nonneg; lia). set (dd := 10 ^ Z.of_nat d) in *.
  assert (TP : 0 < 2 ^ E) by (apply Z.pow_pos_nonneg; lia).
  assert (KP : 0 < Z.of_N k) by (rewrite KT; apply Z.pow_pos_nonneg; lia).
  assert (KB : Z.of_N k <= 2 ^ 50) by (rewrite KT; apply Z.pow_le_mono_r; lia).
  destruct (N.eq_dec n 0) as [->|N0].
  { cbn [Z.of_N Z.mul] in R. change (rnd 0 (- E)) with (Fin 0 0) in R. exists 0%N.
    rewrite (num_rest _ _ _ _ (size_nonempty _ _ _ _ _ _ S) R ltac:(discriminate) U). split; [|replace (2 * Z.of_N 0 * dd - 2 * Z.of_N (0 * k)) with 0 by lia; change (Z.abs 0) with 0; lia].
    destruct u as [|c u]; [contradiction|]. destruct (k =? 1)%N; reflexivity. }
  assert (NP : 0 < Z.of_N n) by lia.
  destruct (rnd_near (Z.of_N n * pm) (- E)) as (m1 & e1 & R1 & M1 & G1 & L1 & H2); [nia| |lia|].
  { apply Z.lt_trans with (2 ^ 53 * 2 ^ 53); [apply Z.mul_lt_mono_nonneg; lia|reflexivity]. }
  rewrite R1 in R. rewrite (num_rest _ _ _ _ (size_nonempty _ _ _ _ _ _ S) R ltac:(discriminate) U).
  assert (LM : m1 < 2 ^ 54). { apply Z.log2_lt_pow2; lia. }
  assert (G : exists m2 e2, (if (k =? 1)%N then Fin m1 e1 else dmul (Fin m1 e1) (dnum (Z.of_N k))) = Fin m2 e2 /\ 0 < m2 /\ e1 <= e2 /\
     2 ^ 53 * Z.abs (m2 * 2 ^ (e2 - e1) - m1 * Z.of_N k) <= m1 * Z.of_N k).
  { destruct (k =? 1)%N eqn:KK.
    - exists m1, e1. split; auto. split; auto. split; [lia|]. rewrite Z.sub_diag. change (2 ^ 0) with 1. replace (Z.of_N k) with 1 by lia. rewrite Z.sub_diag. cbn. lia.
    - unfold dmul, dnum. destruct (rnd_near (m1 * Z.of_N k) (e1 + 0)) as (m2 & e2 & R2 & M2 & G2 & _ & H3); [nia| |lia|].
      + apply Z.lt_trans with (2 ^ 54 * 2 ^ 51); [apply Z.mul_lt_mono_nonneg; lia|reflexivity].
      + exists m2, e2. replace (e1 + 0) with e1 in * by lia. split; auto. split; auto. split; [lia|auto]. }
  destruct G as (m2 & e2 & R2 & M2 & G2 & H3). destruct u as [|c u]; [contradiction|]. rewrite R2.
  set (A1 := m1 * 2 ^ (e1 - - E)) in *. set (M := m2 * 2 ^ (e2 + E)).
  assert (H3' : 2 ^ 53 * Z.abs (M - Z.of_N k * A1) <= Z.of_N k * A1).
  { assert (X : 2 ^ (e2 + E) = 2 ^ (e2 - e1) * 2 ^ (e1 - - E)) by (rewrite <- Z.pow_add_r by lia; f_equal; lia).
    unfold M, A1. rewrite X. assert (0 < 2 ^ (e1 - - E)) by (apply Z.pow_pos_nonneg; lia). set (w := 2 ^ (e1 - - E)) in *. set (v := 2 ^ (e2 - e1)) in *.
    replace (m2 * (v * w) - Z.of_N k * (m1 * w)) with ((m2 * v - m1 * Z.of_N k) * w) by ring. replace (Z.of_N k * (m1 * w)) with (m1 * Z.of_N k * w) by ring. apply scale; [lia|auto]. }
  assert (G : exists r, dround (Fin m2 e2) = Fin r 0 /\ 0 <= r /\ Z.abs (2 * r * 2 ^ E - 2 * M) <= 2 ^ E \/
     exists m e, dround (Fin m2 e2) = Fin m e /\ 0 <= e /\ r = m * 2 ^ e /\ 0 <= r /\ Z.abs (2 * r * 2 ^ E - 2 * M) <= 2 ^ E).
  { unfold dround. destruct (0 <=? e2) eqn:E2.
    - exists (m2 * 2 ^ e2). right. exists m2, e2. assert (0 < 2 ^ e2) by (apply Z.pow_pos_nonneg; lia). do 3 (split; [auto; lia|]). split; [nia|].
      unfold M. rewrite Z.pow_add_r by lia. replace (2 * (m2 * 2 ^ e2) * 2 ^ E - 2 * (m2 * (2 ^ e2 * 2 ^ E))) with 0 by ring. cbn. lia.
    - rewrite Z.sgn_pos, Z.abs_eq, Z.mul_1_l by lia. set (w := 2 ^ (- e2)) in *. assert (W : 0 < w) by (apply Z.pow_pos_nonneg; lia).
      assert (X : 2 ^ E = w * 2 ^ (e2 + E)) by (unfold w; rewrite <- Z.pow_add_r by lia; f_equal; lia).
      assert (Y : 0 < 2 ^ (e2 + E)) by (apply Z.pow_pos_nonneg; lia).
      exists ((2 * m2 + w) / (2 * w)). left. split; auto. split; [apply Z.div_pos; lia|]. unfold M. rewrite X. set (y := 2 ^ (e2 + E)) in *.
      pose proof (Z.div_mod (2 * m2 + w) (2 * w) ltac:(lia)) as DM. pose proof (Z.mod_pos_bound (2 * m2 + w) (2 * w) ltac:(lia)) as MB.
      set (q := (2 * m2 + w) / (2 * w)) in *. clearbody q. replace (2 * q * (w * y) - 2 * (m2 * y)) with ((2 * q * w - 2 * m2) * y) by ring.
      rewrite Z.abs_mul, (Z.abs_eq y) by lia. apply Z.mul_le_mono_nonneg_r; lia. }
  destruct G as (r & G).
  assert (G' : exists m e, dround (Fin m2 e2) = Fin m e /\ 0 <= e /\ m * 2 ^ e = r /\ 0 <= r /\ Z.abs (2 * r * 2 ^ E - 2 * M) <= 2 ^ E).
  { destruct G as [(G & G3 & G4)|(m & e & G & G3 & G4 & G5)]; [exists r, 0; rewrite Z.mul_1_r; auto with zarith|exists m, e; auto]. }
  clear G. destruct G' as (m & e & -> & G3 & G4 & G5 & H4). rewrite (to_int m e r G3 G4).
  assert (FIN : 2 ^ 50 * Z.abs (2 * r * dd - 2 * Z.of_N (n * k)) <= 2 ^ 50 * dd + 2 * Z.of_N (n * k)).
  { rewrite N2Z.inj_mul in *. set (c0 := Z.of_N n * Z.of_N k) in *.
    assert (X1 : 2 ^ 52 * Z.abs (c0 * pm * dd - c0 * 2 ^ E) <= c0 * 2 ^ E).
    { replace (c0 * pm * dd - c0 * 2 ^ E) with ((pm * dd - 2 ^ E) * c0) by ring. rewrite (Z.mul_comm c0 (2 ^ E)). apply scale; [unfold c0; lia|auto]. }
    assert (X2 : 2 ^ 53 * Z.abs (Z.of_N k * A1 * dd - c0 * pm * dd) <= c0 * pm * dd).
    { replace (Z.of_N k * A1 * dd - c0 * pm * dd) with ((A1 - Z.of_N n * pm) * (Z.of_N k * dd)) by (unfold c0; ring).
      replace (c0 * pm * dd) with (Z.of_N n * pm * (Z.of_N k * dd)) by (unfold c0; ring). apply scale; [apply Z.mul_nonneg_nonneg; lia|auto]. }
    assert (X3 : 2 ^ 53 * Z.abs (M * dd - Z.of_N k * A1 * dd) <= Z.of_N k * A1 * dd).
    { replace (M * dd - Z.of_N k * A1 * dd) with ((M - Z.of_N k * A1) * dd) by ring. apply scale; [lia|auto]. }
    assert (X4 : Z.abs (2 * (r * 2 ^ E * dd) - 2 * (M * dd)) <= dd * 2 ^ E).
    { replace (2 * (r * 2 ^ E * dd) - 2 * (M * dd)) with ((2 * r * 2 ^ E - 2 * M) * dd) by ring. rewrite (Z.mul_comm dd (2 ^ E)), <- (Z.mul_1_l (Z.abs _)). apply scale; [lia|rewrite Z.mul_1_l; auto]. }
    assert (X5 : 2 ^ 50 * Z.abs (2 * (r * 2 ^ E * dd) - 2 * (c0 * 2 ^ E)) <= 2 ^ 50 * (dd * 2 ^ E) + 2 * (c0 * 2 ^ E)).
    { set (x0 := c0 * 2 ^ E) in *. set (x1 := c0 * pm * dd) in *. set (x2 := Z.of_N k * A1 * dd) in *. set (x3 := M * dd) in *. set (x4 := r * 2 ^ E * dd) in *. set (y := dd * 2 ^ E) in *.
      clearbody x0 x1 x2 x3 x4 y. clear - X1 X2 X3 X4. change (2 ^ 53) with 9007199254740992 in *. change (2 ^ 52) with 4503599627370496 in *. change (2 ^ 50) with 1125899906842624. lia. }
    replace (2 * (r * 2 ^ E * dd) - 2 * (c0 * 2 ^ E)) with ((2 * r * dd - 2 * c0) * 2 ^ E) in X5 by ring. rewrite Z.abs_mul, (Z.abs_eq (2 ^ E)) in X5 by lia.
    set (w := 2 ^ E) in *. clearbody w. apply (Z.mul_le_mono_pos_r _ _ w); [lia|]. clear - X5. lia. }
  assert (RR : r < 2 ^ 64).
  { set (c0 := Z.of_N (n * k)) in *. clearbody c0. clear - FIN RB DP. apply Z.nle_gt. intros X. assert (Y : 2 ^ 64 * dd <= r * dd) by (apply Z.mul_le_mono_nonneg_r; lia).
    replace (2 * r * dd) with (2 * (r * dd)) in FIN by ring. set (z := r * dd) in *. clearbody z. change (2 ^ 50) with 1125899906842624 in *. change (2 ^ 62) with 4611686018427387904 in RB. change (2 ^ 64) with 18446744073709551616 in Y. lia. }
  replace (0 <=? r) with true by lia. replace (r <? 2 ^ 64) with true by lia. exists (Z.to_N r). split; [reflexivity|]. rewrite Z2N.id by lia. exact FIN.
Qed.

(* A whole number of bytes is read exactly. *)
Theorem size_exact s n d u k x : size s false n d u k -> (n + 48 < 2 ^ 53)%N -> (d < 300)%nat -> d = O \/ u <> [] ->
  (n * k = x * 10 ^ N.of_nat d)%N -> (x < 2 ^ 49)%N -> VNUM_2bytes pow10 s = Ok (inl x).
Proof.
  intros S B D DU X XB. destruct d as [|d'].
  - rewrite (size_whole _ _ _ _ _ S B). change (10 ^ N.of_nat 0)%N with 1%N in X. replace (n * k)%N with x by lia. replace (x <? 2 ^ 64)%N with true by lia. auto.
  - destruct DU as [|DU]; [discriminate|]. set (d := Datatypes.S d') in *.
    assert (DP : 0 < 10 ^ Z.of_nat d) by (apply Z.pow_pos_nonneg; lia).
    assert (X' : Z.of_N (n * k) = Z.of_N x * 10 ^ Z.of_nat d). { rewrite X, N2Z.inj_mul, N2Z.inj_pow. reflexivity. }
    destruct (size_frac s n d u k S B ltac:(lia) DU) as (r & -> & H).
    + rewrite X'. apply Z.mul_lt_mono_pos_r; lia.
    + f_equal. f_equal. rewrite X' in H. set (dd := 10 ^ Z.of_nat d) in *. clearbody dd. clear - H DP XB.
      replace (2 * Z.of_N r * dd - 2 * (Z.of_N x * dd)) with ((2 * Z.of_N r - 2 * Z.of_N x) * dd) in H by ring. rewrite Z.abs_mul, (Z.abs_eq dd), Z.mul_assoc in H by lia.
      replace (2 ^ 50 * dd + 2 * (Z.of_N x * dd)) with ((2 ^ 50 + 2 * Z.of_N x) * dd) in H by ring.
      apply Z.mul_le_mono_pos_r in H; auto. lia.
Qed.

(** * What is refused *)
Lemma skip_split p : exists s, p = s ++ skip_space p /\ spaces s /\ match skip_space p with [] => True | c :: _ => is_space c = false end.
Proof.
  induction p as [|c p IH]; [exists []; repeat constructor|]. cbn [skip_space]. destruct (is_space c) eqn:C.
  - destruct IH as (s & E & S & H). exists (c :: s). split; [cbn [app]; congruence|]. split; [constructor; auto|auto].
  - exists []. split; [auto|]. split; [constructor|auto].
Qed.
Lemma sign_split p : exists g neg, sign g neg /\ p = g ++ snd (take_sign p).
Proof.
  destruct p as [|c p]; [exists [], false; split; [left; auto|auto]|]. cbn [take_sign].
  destruct (c =? 45)%N eqn:A; [apply N.eqb_eq in A; subst c; exists (str "-"), true; split; [right; auto|reflexivity]|].
  destruct (c =? 43)%N eqn:B; [apply N.eqb_eq in B; subst c; exists (str "+"), false; split; [left; auto|reflexivity]|].
  exists [], false. split; [left; auto|reflexivity].
Qed.
Lemma mantissa_split p : forall m e ne,
  (ne = 0 -> exists a b, alld (a ++ b) /\ (p = a ++ str "." ++ b ++ snd (mantissa p m e ne) \/ p = a ++ snd (mantissa p m e ne) /\ b = []) /\ (a ++ b = [] -> snd (fst (mantissa p m e ne)) = e)) /\
  (ne < 0 -> exists b, alld b /\ p = b ++ snd (mantissa p m e ne) /\ (b = [] -> snd (fst (mantissa p m e ne)) = e)).
Proof.
  induction p as [|c p IH]; intros m e ne.
  - split; intros _; [exists [], []|exists []]; (split; [constructor|]); cbn; auto.
  - cbn [mantissa]. destruct (is_digit c) eqn:D.
    + specialize (IH (digit_in m c) ne (if ne =? 0 then ne else ne - 1)). destruct IH as (I0 & I1). split; intros NE.
      * destruct I0 as (a & b & A & F & G); [replace (ne =? 0) with true by lia; auto|]. exists (c :: a), b. split; [constructor; auto|]. split; [|discriminate].
        destruct F as [F|(F & ->)]; [left; cbn [app]; congruence|right; split; [cbn [app]; congruence|auto]].
      * destruct I1 as (b & A & F & G); [replace (ne =? 0) with false by lia; lia|]. exists (c :: b). split; [constructor; auto|]. split; [cbn [app]; congruence|discriminate].
    + destruct ((c =? 46)%N && (ne =? 0)) eqn:P.
      * split; intros NE; [|lia]. destruct (IH m e (-1)) as (_ & I1). destruct I1 as (b & A & F & G); [lia|]. exists [], b. split; [auto|]. split; [|auto].
        left. cbn [app]. assert (c = 46%N) by lia. subst c. change (str "." ++ b ++ snd (mantissa p m e (-1))) with (46%N :: b ++ snd (mantissa p m e (-1))). congruence.
      * split; intros _; [exists [], []|exists []]; (split; [constructor|]); cbn; auto.
Qed.
Lemma exponent_split p : forall ee, exists x, alld x /\ p = x ++ snd (exponent p ee).
Proof.
  induction p as [|c p IH]; intros ee; [exists []; split; [constructor|auto]|]. cbn [exponent]. destruct (is_digit c) eqn:D; [|exists []; split; [constructor|auto]].
  destruct (IH (digit_in ee c)) as (x & A & E). exists (c :: x). split; [constructor; auto|cbn [app]; congruence].
Qed.
Lemma exponent_of_split p es ee q : exponent_of p = Some (es, (ee, q)) -> exists y, (y = [] \/ exponent_part y) /\ p = y ++ q.
Proof.
  unfold exponent_of. destruct p as [|c p]; [intros [= _ _ <-]; exists []; auto|].
  destruct ((c =? 101)%N || (c =? 69)%N) eqn:C; [|intros [= _ _ <-]; exists []; auto].
  destruct (sign_split p) as (g & neg & G & E). destruct (take_sign p) as [es' r]. cbn [snd] in E. destruct r as [|d r]; [discriminate|].
  destruct (is_digit d) eqn:D; [|discriminate]. intros EX0. assert (EX : exponent (d :: r) (dnum 0) = (ee, q)) by congruence. clear EX0.
  destruct (exponent_split (d :: r) (dnum 0)) as (x & A & F). rewrite EX in F. cbn [snd] in F. exists (c :: g ++ x). split; [right|].
  - exists c, g, x, neg. split; [cbn [lower map]; unfold to_lower, is_upper; assert (X : c = 101%N \/ c = 69%N) by lia; destruct X as [-> | ->]; reflexivity|]. split; auto. split; [split; auto|auto].
    intros ->. cbn [app] in F. rewrite <- F in EX. cbn [exponent] in EX. rewrite D in EX. apply (f_equal snd) in EX. cbn [snd] in EX.
    destruct (exponent_split r (digit_in (dnum 0) d)) as (x & _ & E'). rewrite EX in E'. apply (f_equal (@List.length N)) in E'. rewrite app_length in E'. cbn [List.length] in E'. lia.
  - cbn [app]. rewrite <- app_assoc. congruence.
Qed.

Lemma suffix_split p : match p with [] => False | c :: _ => is_space c = false end -> drop_b (snd (suffix p)) = [] -> exists k, unit_of p k.
Proof.
  destruct p as [|c p]; [contradiction|]. intros SP. unfold suffix.
  assert (E : accept_space (c :: p) = c :: p).
  { cbn [accept_space]. destruct p; auto. destruct (c =? 32)%N eqn:C; auto. unfold is_space in SP. lia. }
  rewrite E. clear E SP.
  assert (T : forall q, drop_b q = [] -> q = [] \/ lower q = str "b").
  { intros [|b q] H; auto. cbn [drop_b] in H. destruct ((b =? 98)%N || (b =? 66)%N) eqn:B; [|discriminate]. subst q. right.
    assert (X : b = 98%N \/ b = 66%N) by lia. destruct X as [-> | ->]; reflexivity. }
  repeat match goal with |- context[if ?b then (2 ^ ?s, p) else _] => let B := fresh "B" in destruct b eqn:B end; cbn [snd]; intros H; apply T in H.
  Ltac one c B H k x := exists k; assert (X : to_lower c = x) by (clear H; lazymatch type of B with (orb (N.eqb _ ?a) (N.eqb _ ?b) = true) => assert (Y : c = a \/ c = b) by lia; destruct Y as [-> | ->]; reflexivity end);
    destruct H as [-> | H]; unfold unit_of; cbn [lower map]; try (unfold lower in H; rewrite H); rewrite X; cbn; tauto.
  - one c B H (2 ^ 10)%N 107%N.
  - one c B0 H (2 ^ 20)%N 109%N.
  - one c B1 H (2 ^ 30)%N 103%N.
  - one c B2 H (2 ^ 40)%N 116%N.
  - one c B3 H (2 ^ 50)%N 112%N.
  - destruct H as [H|H]; [discriminate|]. exists 1%N. unfold unit_of. rewrite H. cbn. tauto.
Qed.

Theorem num_form p : size_form p \/ exists msg, VNUM_2bytes pow10 p = Ok (inr msg).
Proof.
  unfold VNUM_2bytes. destruct p as [|c0 p0] eqn:EP; [right; eauto|]. rewrite <- EP. clear EP c0 p0. unfold VNUMpfx.
  destruct (skip_split p) as (s1 & E1 & S1 & _). set (p1 := skip_space p) in *.
  destruct (sign_split p1) as (g & neg & G & E2). destruct (take_sign p1) as [ms p2]. cbn [snd] in E2.
  destruct (mantissa_split p2 (dnum 0) 1 0) as (MS & _). destruct (MS eq_refl) as (a & b & A & F & NE). clear MS.
  destruct (mantissa p2 (dnum 0) 1 0) as [[m e] p3]. cbn [fst snd] in *.
  destruct (0 <? e) eqn:E0; [right; eauto|].
  destruct (exponent_of p3) as [[es [ee p4]]|] eqn:EX; [|right; eauto]. apply exponent_of_split in EX. destruct EX as (y & Y & E4).
  destruct (skip_split p4) as (s2 & E5 & S2 & SP). set (u := skip_space p4) in *.
  set (fval := dmul _ _). assert (NN : fval = NaN \/ fval <> NaN) by (destruct fval; [right|right|left]; congruence).
  assert (DE : exists x, decimal x (dec_value (a ++ b)) (List.length b) /\ p2 = x ++ p3).
  { assert (AB : a ++ b <> []) by (intros X; apply NE in X; lia). destruct F as [F|(F & ->)].
    - exists (a ++ str "." ++ b). split; [exists a, b; auto 7|]. rewrite F, <- !app_assoc. auto.
    - exists a. split; [exists a, []; rewrite ?app_nil_r in *; auto 8|auto]. }
  destruct DE as (x & DE & E3).
  assert (DONE : forall k, unit_of u k -> size_form p).
  { intros k U. exists s1, g, neg, x, (dec_value (a ++ b)), (List.length b), y, s2, u, k. do 6 (split; auto). rewrite E1, E2, E3, E4, E5. rewrite <- ?app_assoc. auto. }
  destruct fval as [fm fe|fs|]; [..|right; eauto].
  all: destruct (is_nil u) eqn:NU; [left; destruct u; [|discriminate]; apply (DONE 1%N); left; reflexivity|].
  all: destruct (bytes_eqb u [37%N]); [right; eauto|]; pose proof (suffix_split u) as SS; destruct (suffix u) as [k q]; cbn [snd] in SS.
  all: destruct (drop_b q) eqn:DB; [left; destruct SS as (k' & U'); [destruct u; [discriminate|auto]|auto|eauto]|right; cbn [is_nil]; eauto].
Qed.
End Num.

(** * A power function *)
Definition pow_ref (x : dbl) : dbl :=
  match x with
  | Fin z 0 => if 0 <=? z then rnd (10 ^ z) 0 else
      let D := 10 ^ (- z) in let E := Z.log2 D + 53 in Fin ((2 * 2 ^ E + D) / (2 * D)) (- E)
  | _ => Inf false
  end.
Lemma pow_ref_ok : pow_ok pow_ref.
Proof.
  split; [reflexivity|]. intros d D1 D2.
  pose (chk := fun d => let D := 10 ^ Z.of_nat d in let E := Z.log2 D + 53 in let m := (2 * 2 ^ E + D) / (2 * D) in
    (0 <=? E) && (0 <? m) && (m <? 2 ^ 53) && (2 ^ 52 * Z.abs (m * D - 2 ^ E) <=? 2 ^ E)).
  assert (A : forallb chk (seq 1 299) = true) by (vm_compute; reflexivity).
  rewrite forallb_forall in A. specialize (A d ltac:(apply in_seq; lia)). unfold chk in A. cbv zeta in A.
  exists ((2 * 2 ^ (Z.log2 (10 ^ Z.of_nat d) + 53) + 10 ^ Z.of_nat d) / (2 * 10 ^ Z.of_nat d)), (Z.log2 (10 ^ Z.of_nat d) + 53).
  split; [unfold pow_ref, dnum; replace (0 <=? - Z.of_nat d) with false by lia; rewrite Z.opp_involutive; reflexivity|].
  rewrite !andb_true_iff in A. destruct A as (((A1 & A2) & A3) & A4). split; [lia|]. split; [split; lia|]. apply Z.leb_le in A4. exact A4.
Qed.
