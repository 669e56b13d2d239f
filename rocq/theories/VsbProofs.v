(* Lemmas about VsbModel.v. *)
From Coq Require Import List NArith ZArith Bool Lia.
From Coq Require Import ZifyBool ZifyNat ZifyN.
From Verif Require Import Base BaseLemmas ListLemmas VsbModel VsbSpec.
Ltac Zify.zify_post_hook ::= Z.div_mod_to_equations.
Open Scope list_scope.
Open Scope N_scope.

Lemma wr_ok (m : bytes) off d : off + len d <= len m -> exists m', wr m off d = Ok m' /\ len m' = len m /\
  firstn (N.to_nat (off + len d)) m' = firstn (N.to_nat off) m ++ d /\
  (forall k, (k <= N.to_nat off)%nat -> firstn k m' = firstn k m).
Proof.
  intros H. unfold wr. replace (off + len d <=? len m) with true by (symmetry; apply N.leb_le; auto).
  eexists. split; [reflexivity|].
  assert (L : length (firstn (N.to_nat off) m) = N.to_nat off) by (rewrite firstn_length; unfold len in *; lia).
  split; [|split].
  - unfold len in *. rewrite !app_length, L, skipn_length. lia.
  - rewrite app_assoc. replace (N.to_nat (off + len d)) with (length (firstn (N.to_nat off) m ++ d)).
    + apply firstn_app_len.
    + rewrite app_length, L. unfold len. lia.
  - intros k Hk. rewrite firstn_app, L. replace (k - N.to_nat off)%nat with 0%nat by lia.
    rewrite firstn_O, app_nil_r, firstn_firstn. f_equal. lia.
Qed.

Lemma double_ge fuel : forall n size, size <= n * 2 ^ N.of_nat fuel -> size <= double_to fuel n size.
Proof.
  induction fuel as [|f IH]; intros n size H; cbn [double_to].
  - rewrite N.pow_0_r in H. lia.
  - destruct (N.ltb_spec n size); auto. apply IH. rewrite Nat2N.inj_succ, N.pow_succ_r' in H. lia.
Qed.

Lemma extendsize_ge n : n <= VSB_extendsize n.
Proof.
  unfold VSB_extendsize. destruct (N.ltb_spec n 4096).
  - apply double_ge. change (16 * 2 ^ N.of_nat 8) with 4096. lia.
  - change 4095 with (N.ones 12) at 2. rewrite N.ldiff_ones_r, N.shiftl_mul_pow2, N.shiftr_div_pow2.
    change (2 ^ 12) with 4096. lia.
Qed.

Section Vsb.
Variable alloc : N -> bool.
Variable junk : N -> N.
Notation extend := (VSB_extend alloc junk).

Definition inv (s : vsb) : Prop := s_len s < s_size s /\ s_fin s = false /\ (0 <= s_indent s)%Z.
Definition good (s : vsb) (st : bytes * N) : Prop :=
  firstn (N.to_nat (s_len s)) (s_mem s) = fst st /\ s_indent s = Z.of_N (snd st).
(* what stays *)
Definition same (s s' : vsb) : Prop := s_auto s' = s_auto s /\ (s_auto s = false -> s_size s' = s_size s).

Lemma same_refl s : same s s.
Proof. split; auto. Qed.
Lemma same_trans a b c : same a b -> same b c -> same a c.
Proof. intros [H1 H2] [H3 H4]. split; [congruence|]. intros H. rewrite H4 by congruence. auto. Qed.

Lemma good_len s t ind : inv s -> good s (t, ind) -> len t = s_len s.
Proof.
  intros [H _] [G _]. cbn in G. subst t. unfold len, s_size, len in *. rewrite firstn_length. lia.
Qed.

Lemma fresh_len n : len (fresh junk n) = n.
Proof. unfold len, fresh. rewrite map_length, seq_length. lia. Qed.

Lemma extend_spec s a : inv s -> match extend s a with
  | Some s' => s_size s + a <= s_size s' /\ s_len s' = s_len s /\ s_fin s' = s_fin s /\ s_error s' = s_error s /\
      s_indent s' = s_indent s /\ s_auto s' = true /\ s_auto s = true /\
      firstn (N.to_nat (s_len s)) (s_mem s') = firstn (N.to_nat (s_len s)) (s_mem s)
  | None => s_auto s = false \/ exists n, alloc n = false
  end.
Proof.
  intros (H1 & H2 & H3). unfold VSB_extend. destruct (s_auto s) eqn:A; cbn [negb]; auto.
  destruct (alloc (VSB_extendsize (s_size s + a))) eqn:E; eauto.
  unfold with_mem. cbn [s_mem s_len s_fin s_error s_indent s_auto].
  assert (G := extendsize_ge (s_size s + a)).
  split; [|repeat split; auto].
  - unfold s_size at 2. cbn [s_mem]. rewrite len_app, fresh_len. fold (s_size s). lia.
  - rewrite firstn_app. replace (N.to_nat (s_len s) - length (s_mem s))%nat with 0%nat by (unfold s_size, len in *; lia).
    rewrite firstn_O, app_nil_r. auto.
Qed.

(* storing d behind the text *)
Lemma put_spec s d : inv s -> len d <= freespace s ->
  exists m, wr (s_mem s) (s_len s) d = Ok m /\ len m = s_size s /\
    inv (with_mem s m (s_len s + len d)) /\
    (forall t ind, good s (t, ind) -> good (with_mem s m (s_len s + len d)) (t ++ d, ind)).
Proof.
  intros (H1 & H2 & H3) H. unfold freespace in H.
  destruct (wr_ok (s_mem s) (s_len s) d) as (m & E & L & F & _). { unfold s_size in *. lia. }
  exists m. split; auto. split; auto. split.
  - unfold inv, with_mem, s_size. cbn. rewrite L. unfold s_size in *. split; [lia|auto].
  - intros t ind [G1 G2]. split; cbn in *; auto. rewrite F, G1. auto.
Qed.

Lemma bol_mem s t ind : inv s -> good s (t, ind) ->
  ((0 <? s_len s) && negb (nth (N.to_nat (s_len s - 1)) (s_mem s) 0 =? 10)) = negb (bol t).
Proof.
  intros H G. assert (L := good_len _ _ _ H G). destruct G as [G _]. cbn [fst] in G.
  destruct t as [|x t'] eqn:Et.
  - rewrite len_nil in L. rewrite <- L. reflexivity.
  - rewrite <- Et in *. destruct (exists_last (l := t)) as (q & c & Eq); [rewrite Et; discriminate|].
    unfold bol. rewrite Eq in *. rewrite rev_app_distr. cbn [rev app].
    rewrite len_app, len_cons, len_nil in L.
    replace (0 <? s_len s) with true by (symmetry; apply N.ltb_lt; lia). cbn [andb].
    replace (nth (N.to_nat (s_len s - 1)) (s_mem s) 0) with c; auto.
    rewrite <- (firstn_skipn (N.to_nat (s_len s)) (s_mem s)), G.
    replace (N.to_nat (s_len s - 1)) with (length q) by (unfold len in L; lia).
    rewrite <- app_assoc, app_nth2 by lia. rewrite Nat.sub_diag. auto.
Qed.

Lemma indent_spec s t ind : inv s -> good s (t, ind) -> s_error s = false ->
  exists s1, vsb_indent alloc junk s = Ok s1 /\ inv s1 /\ same s s1 /\
    ((s_error s1 = false /\ good s1 (t ++ pad t ind, ind)) \/
     (s_error s1 = true /\ (s_auto s = true -> exists n, alloc n = false) /\
      (s_auto s = false -> s_size s <= len (t ++ pad t ind) + 1))).
Proof.
  intros H G E. unfold vsb_indent. rewrite (bol_mem _ _ _ H G), E. assert (G2 := G). destruct G2 as [_ GI]. cbn [snd] in GI.
  assert (L := good_len _ _ _ H G).
  rewrite orb_false_r. unfold pad. destruct (Z.eqb_spec (s_indent s) 0) as [Z0|Z0].
  { exists s. cbn [orb]. split; auto. split; auto. split; [apply same_refl|]. left. split; auto.
    assert (ind = 0) by lia. subst. destruct (bol t); cbn; rewrite app_nil_r; auto. }
  cbn [orb]. destruct (bol t) eqn:B; cbn [negb].
  2:{ exists s. split; auto. split; auto. split; [apply same_refl|]. left. split; auto. rewrite app_nil_r. auto. }
  rewrite GI, N2Z.id. assert (LR : len (repeat 32 (N.to_nat ind)) = ind) by (unfold len; rewrite repeat_length; lia).
  destruct (N.leb_spec (freespace s) ind) as [F|F].
  - assert (X := extend_spec s ind H). destruct (extend s ind) as [s'|].
    + destruct X as (X1 & X2 & X3 & X4 & X5 & X6 & X6b & X7).
      assert (H' : inv s'). { destruct H as (A & B1 & C). unfold inv. rewrite X2, X3, X5. split; [lia|auto]. }
      assert (G' : good s' (t, ind)). { destruct G as [Ga Gb]. split; cbn in *; [rewrite X2, X7; auto|lia]. }
      destruct (put_spec s' (repeat 32 (N.to_nat ind)) H') as (m & W & M & I & P).
      { rewrite LR. unfold freespace in *. destruct H as (A & _). lia. }
      rewrite W. cbn [bind]. eexists. split; [reflexivity|]. rewrite LR in *.
      split; auto. split; [split; cbn; congruence|]. left. split; [cbn; congruence|]. apply P; auto.
    + exists (with_error s). split; auto. split; [exact H|]. split; [split; auto|]. right. split; auto. split.
      * destruct X as [X|X]; auto. congruence.
      * intros _. rewrite len_app, LR. unfold freespace in F. destruct H as (A & _). lia.
  - destruct (put_spec s (repeat 32 (N.to_nat ind)) H) as (m & W & M & I & P). { lia. }
    rewrite W. cbn [bind]. eexists. split; [reflexivity|]. rewrite LR in *. split; auto.
    split; [split; auto|]. left. split; auto.
Qed.

(* the outcome of one operation *)
Definition outcome (s s' : vsb) (t' : bytes) (ind' : N) : Prop :=
  inv s' /\ same s s' /\
  (s_error s' = false -> good s' (t', ind')) /\
  (s_auto s = true -> (forall n, alloc n = true) -> s_error s' = false) /\
  (s_auto s = false -> len t' + 1 < s_size s -> s_error s' = false).

(* common end of VSB_put_byte and VSB_bcat *)
Lemma tail_spec s d a (test : bool) : inv s -> (test = false -> len d <= freespace s) -> (len d <= freespace s + a) ->
  (test = true -> freespace s < len d) ->
  exists s', (if test then
      match extend s a with
      | None => Ok (with_error s)
      | Some s' => if s_error s' then Ok s' else
          let* m := wr (s_mem s') (s_len s') d in Ok (with_mem s' m (s_len s' + len d))
      end
    else let* m := wr (s_mem s) (s_len s) d in Ok (with_mem s m (s_len s + len d))) = Ok s' /\
    inv s' /\ same s s' /\ (s_error s = true -> s_error s' = true) /\
    (s_error s' = false -> forall t ind, good s (t, ind) -> good s' (t ++ d, ind)) /\
    (s_error s = false -> s_error s' = true -> (s_auto s = true -> exists n, alloc n = false) /\
       (s_auto s = false -> s_size s <= s_len s + len d)).
Proof.
  intros H Ht Ha Htt. destruct test.
  - assert (X := extend_spec s a H). destruct (extend s a) as [s'|].
    + destruct X as (X1 & X2 & X3 & X4 & X5 & X6 & X6b & X7).
      assert (H' : inv s'). { destruct H as (A & B1 & C). unfold inv. rewrite X2, X3, X5. split; [lia|auto]. }
      destruct (s_error s') eqn:E.
      * exists s'. split; auto. split; auto. split; [split; congruence|]. split; auto. split; [congruence|]. congruence.
      * destruct (put_spec s' d H') as (m & W & M & I & P). { unfold freespace in *. destruct H as (A & _). lia. }
        rewrite W. cbn [bind]. eexists. split; [reflexivity|]. split; auto. split; [split; cbn; congruence|].
        split; [cbn; congruence|]. split.
        -- intros _ t ind [Ga Gb]. apply P. split; cbn in *; [rewrite X2, X7; auto|lia].
        -- cbn. congruence.
    + exists (with_error s). split; auto. split; [exact H|]. split; [split; auto|]. split; auto. split; [cbn; congruence|].
      intros _ _. split.
      * destruct X as [X|X]; auto. congruence.
      * intros _. specialize (Htt eq_refl). unfold freespace in Htt. destruct H as (A & _). lia.
  - destruct (put_spec s d H (Ht eq_refl)) as (m & W & M & I & P). rewrite W. cbn [bind].
    eexists. split; [reflexivity|]. split; auto. split; [split; auto|]. split; auto. split; [intros _; exact P|].
    cbn. congruence.
Qed.

Lemma check_ok s : inv s -> check s = Ok tt.
Proof.
  intros (A & B & C). unfold check. replace (s_len s <? s_size s) with true by (symmetry; apply N.ltb_lt; auto).
  rewrite B. auto.
Qed.

Lemma append_spec s t ind d a (test : vsb -> bool) : inv s -> good s (t, ind) -> s_error s = false ->
  (forall s, test s = true <-> freespace s < len d) -> (forall s, len d <= freespace s + a s) ->
  exists s', (let* s := vsb_indent alloc junk s in
    if test s then
      match extend s (a s) with
      | None => Ok (with_error s)
      | Some s' => if s_error s' then Ok s' else
          let* m := wr (s_mem s') (s_len s') d in Ok (with_mem s' m (s_len s' + len d))
      end
    else let* m := wr (s_mem s) (s_len s) d in Ok (with_mem s m (s_len s + len d))) = Ok s' /\
  outcome s s' (t ++ pad t ind ++ d) ind.
Proof.
  intros H G E Ht Ha. destruct (indent_spec s t ind H G E) as (s1 & E1 & I1 & S1 & D).
  rewrite E1. cbn [bind].
  destruct (tail_spec s1 d (a s1) (test s1) I1) as (s' & E2 & I2 & S2 & Er & Gd & Fl).
  { intros X. destruct (N.le_gt_cases (len d) (freespace s1)); auto. apply Ht in H0. congruence. }
  { apply Ha. } { apply Ht. }
  exists s'. split; auto. split; auto. split; [eapply same_trans; eauto|]. rewrite app_assoc.
  destruct D as [[De Dg]|(De & Da & Db)].
  - split; [intros X; apply Gd; auto|].
    destruct S1 as [Sa Sb]. split.
    + intros A All. destruct (s_error s') eqn:Es; auto. destruct (Fl De eq_refl) as [F1 _].
      destruct F1 as [n Hn]; [congruence|]. rewrite All in Hn. discriminate.
    + intros A Len. destruct (s_error s') eqn:Es; auto. destruct (Fl De eq_refl) as [_ F2].
      assert (L := good_len _ _ _ I1 Dg). rewrite Sb in F2 by auto. rewrite len_app, L in Len. assert (s_auto s1 = false) by congruence.
      specialize (F2 H0). lia.
  - split; [intros X; rewrite Er in X; auto; discriminate|]. split.
    + intros A All. destruct (Da A) as [n Hn]. rewrite All in Hn. discriminate.
    + intros A Len. specialize (Db A). rewrite len_app in Len. lia.
Qed.

Lemma put_byte_spec s t ind c : inv s -> good s (t, ind) -> s_error s = false ->
  exists s', VSB_put_byte alloc junk s c = Ok s' /\ outcome s s' (put1 ind t c) ind.
Proof.
  intros H G E. unfold VSB_put_byte. rewrite check_ok by auto. cbn [bind]. rewrite E.
  destruct (append_spec s t ind [c] (fun _ => 1) (fun s => freespace s =? 0) H G E) as (s' & E' & O).
  - intros x. rewrite N.eqb_eq. change (len [c]) with 1. lia.
  - intros x. change (len [c]) with 1. lia.
  - exists s'. split; auto.
Qed.

Lemma bcat_spec s t ind d : inv s -> good s (t, ind) -> s_error s = false ->
  exists s', VSB_bcat alloc junk s d = Ok s' /\ outcome s s' (match d with [] => t | _ => t ++ pad t ind ++ d end) ind.
Proof.
  intros H G E. unfold VSB_bcat. rewrite check_ok by auto. cbn [bind]. rewrite E.
  destruct d as [|x d'].
  - cbn. exists s. split; auto. split; auto. split; [apply same_refl|]. auto.
  - remember (x :: d') as d eqn:Ed. replace (len d =? 0) with false by (symmetry; apply N.eqb_neq; rewrite Ed, len_cons; lia).
    destruct (append_spec s t ind d (fun s => len d - freespace s) (fun s => freespace s <? len d) H G E) as (s' & E' & O).
    + intros y. apply N.ltb_lt.
    + intros y. lia.
    + exists s'. split; auto.
Qed.

Lemma cat_spec : forall d s t ind, inv s -> good s (t, ind) -> s_error s = false ->
  exists s', cat_loop alloc junk s d = Ok s' /\ outcome s s' (fold_left (put1 ind) d t) ind.
Proof.
  induction d as [|c d IH]; intros s t ind H G E; cbn [cat_loop fold_left].
  - exists s. split; auto. split; auto. split; [apply same_refl|]. auto.
  - destruct (put_byte_spec s t ind c H G E) as (s1 & E1 & I1 & S1 & G1 & A1 & B1).
    rewrite E1. cbn [bind]. destruct (s_error s1) eqn:Es.
    + exists s1. split; auto. split; auto. split; auto. split; [congruence|]. split; [intros; rewrite Es; auto|].
      intros A L. rewrite Es. apply B1; auto.
      assert (M : forall d t, len t <= len (fold_left (put1 ind) d t)).
      { clear. induction d as [|c d IH]; intros t; cbn [fold_left]; [lia|].
        specialize (IH (put1 ind t c)). unfold put1 in *. rewrite !len_app in IH. unfold put1 in *. lia. }
      specialize (M d (put1 ind t c)). lia.
    + destruct (IH s1 (put1 ind t c) ind I1 (G1 eq_refl) Es) as (s2 & E2 & I2 & S2 & G2 & A2 & B2).
      exists s2. split; auto. split; auto. split; [eapply same_trans; eauto|]. split; auto.
      destruct S1 as [Sa Sb]. split.
      * intros A All. apply A2; auto. congruence.
      * intros A L. apply B2; [congruence|]. rewrite Sb by auto. auto.
Qed.

Lemma printf_spec s t ind d : inv s -> good s (t, ind) -> s_error s = false ->
  exists s', VSB_printf alloc junk s d = Ok s' /\ inv s' /\ same s s' /\
  (s_error s' = false -> (s_auto s = true -> forall n, alloc n = true) -> good s' (t ++ pad t ind ++ d, ind)) /\
  (s_auto s = true -> (forall n, alloc n = true) -> s_error s' = false) /\
  (s_auto s = false -> len (t ++ pad t ind ++ d) + 1 < s_size s -> s_error s' = false).
Proof.
  intros H G E. unfold VSB_printf. rewrite check_ok by auto. cbn [bind]. rewrite E.
  destruct (indent_spec s t ind H G E) as (s1 & E1 & I1 & S1 & D). rewrite E1. cbn [bind].
  (* one vsnprintf *)
  assert (SN : forall s, inv s -> exists m, snprintf s d = Ok (with_mem s m (s_len s)) /\ len m = s_size s /\
     firstn (N.to_nat (s_len s)) m = firstn (N.to_nat (s_len s)) (s_mem s) /\
     firstn (N.to_nat (s_len s + N.min (len d) (freespace s))) m =
       firstn (N.to_nat (s_len s)) (s_mem s) ++ firstn (N.to_nat (N.min (len d) (freespace s))) d).
  { clear. intros s (A & B & C). unfold snprintf. set (n := N.min (len d) (freespace s)).
    assert (Ln : len (firstn (N.to_nat n) d) = n) by (unfold len; rewrite firstn_length; unfold n, len; lia).
    destruct (wr_ok (s_mem s) (s_len s) (firstn (N.to_nat n) d ++ [0])) as (m & W & M & F & K).
    { rewrite len_app, Ln. change (len [0]) with 1. unfold n, freespace, s_size in *. lia. }
    rewrite W. cbn [bind]. exists m. split; auto. split; auto. split; [apply K; auto|].
    assert (X : firstn (N.to_nat (s_len s + n)) m = firstn (N.to_nat (s_len s + n)) (firstn (N.to_nat (s_len s + len (firstn (N.to_nat n) d ++ [0]))) m)).
    { rewrite firstn_firstn. f_equal. rewrite len_app, Ln. change (len [0]) with 1. lia. }
    rewrite X, F. rewrite app_assoc.
    assert (L2 : length (firstn (N.to_nat (s_len s)) (s_mem s) ++ firstn (N.to_nat n) d) = N.to_nat (s_len s + n)).
    { rewrite app_length. unfold len in Ln. rewrite firstn_length at 1. unfold s_size, len in A. lia. }
    rewrite <- L2. apply firstn_app_len. }
  (* the loop *)
  assert (LP : exists s2 m, printf_loop alloc junk 2 s1 d = Ok s2 /\ inv s2 /\ same s1 s2 /\ s_error s2 = s_error s1 /\
     s_len s2 = s_len s1 /\ s_indent s2 = s_indent s1 /\ s_mem s2 = m /\
     firstn (N.to_nat (s_len s1 + N.min (len d) (freespace s2))) m =
       firstn (N.to_nat (s_len s1)) (s_mem s1) ++ firstn (N.to_nat (N.min (len d) (freespace s2))) d /\
     (freespace s2 < len d -> s_auto s1 = false \/ exists n, alloc n = false)).
  { cbn [printf_loop]. destruct (SN s1 I1) as (m1 & P1 & M1 & K1 & F1). rewrite P1. cbn [bind].
    set (sa := with_mem s1 m1 (s_len s1)).
    assert (Ia : inv sa). { destruct I1 as (A & B & C). unfold inv, sa, with_mem, s_size. cbn. rewrite M1. auto. }
    assert (Fa : freespace sa = freespace s1). { unfold freespace, s_size, sa, with_mem. cbn. rewrite M1. auto. }
    assert (Sa : same s1 sa). { split; auto. }
    destruct (N.ltb_spec (freespace sa) (len d)) as [Lt|Ge].
    - assert (X := extend_spec sa (len d - freespace sa) Ia). destruct (extend sa (len d - freespace sa)) as [sb|].
      + destruct X as (X1 & X2 & X3 & X4 & X5 & X6 & X6b & X7).
        assert (Ib : inv sb). { destruct Ia as (A & B & C). unfold inv. rewrite X2, X3, X5. split; [lia|auto]. }
        destruct (SN sb Ib) as (m2 & P2 & M2 & K2 & F2). rewrite P2. cbn [bind].
        assert (Fb : freespace (with_mem sb m2 (s_len sb)) = freespace sb).
        { unfold freespace, s_size, with_mem. cbn. rewrite M2. auto. }
        assert (Room : len d <= freespace sb).
        { unfold freespace in *. rewrite X2. destruct Ia as (A & _). lia. }
        replace (freespace (with_mem sb m2 (s_len sb)) <? len d) with false by (symmetry; apply N.ltb_ge; lia).
        exists (with_mem sb m2 (s_len sb)), m2. split; auto. split.
        { destruct Ib as (A & B & C). unfold inv, with_mem, s_size. cbn. rewrite M2. auto. }
        split. { split; cbn; [unfold sa in X6b; cbn in X6b; congruence|unfold sa in X6b; cbn in X6b; congruence]. }
        split; [cbn; rewrite X4; auto|]. split; [cbn; rewrite X2; auto|]. split; [cbn; rewrite X5; auto|]. split; auto.
        split.
        * rewrite Fb. rewrite X2 in F2. change (s_len sa) with (s_len s1) in *. rewrite F2. f_equal. rewrite X7. unfold sa. cbn. auto.
        * rewrite Fb. lia.
      + exists sa, m1. split; auto. split; auto. split; auto. split; auto. split; auto. split; auto. split; auto. split.
        * rewrite Fa. auto.
        * intros _. destruct X as [X|X]; auto.
    - exists sa, m1. split; auto. split; auto. split; auto. split; auto. split; auto. split; auto. split; auto. split.
      * rewrite Fa. auto.
      * lia. }
  destruct LP as (s2 & m & P & I2 & S2 & Er2 & L2 & N2 & M2 & F2 & X2). rewrite P. cbn [bind]. cbv zeta.
  set (n := N.min (len d) (freespace s2)). set (s3 := with_mem s2 (s_mem s2) (s_len s2 + n)).
  assert (I3 : inv s3).
  { destruct I2 as (A & B & C). unfold inv, s3, with_mem, s_size in *. cbn. unfold n, freespace, s_size in *. split; [lia|auto]. }
  assert (S3 : same s s3). { eapply same_trans; [exact S1|]. eapply same_trans; [exact S2|]. split; auto. }
  set (s4 := if negb (s_len s3 <? s_size s3 - 1) && negb (s_auto s3) then with_error s3 else s3).
  assert (I4 : inv s4). { unfold s4. destruct (negb (s_len s3 <? s_size s3 - 1) && negb (s_auto s3)); auto. }
  replace (s_len s4 <? s_size s4) with true by (symmetry; apply N.ltb_lt; apply I4). cbn [guard bind].
  exists s4. split; auto. split; auto.
  split. { unfold s4. destruct (negb (s_len s3 <? s_size s3 - 1) && negb (s_auto s3)); auto. }
  assert (Auto : s_auto s3 = s_auto s) by (apply S3).
  assert (Auto1 : s_auto s1 = s_auto s) by (apply S1).
  (* all of d is there *)
  assert (Full : s_error s1 = false -> good s1 (t ++ pad t ind, ind) -> n = len d -> good s3 (t ++ pad t ind ++ d, ind)).
  { intros _ [Ga Gb] Hn. cbn [fst snd] in *. split; cbn [fst snd].
    - unfold s3, with_mem. cbn. fold n in F2. rewrite L2, M2, F2, Ga, Hn. unfold len. rewrite Nat2N.id, firstn_all. apply app_assoc_reverse.
    - unfold s3, with_mem. cbn. rewrite N2. auto. }
  assert (Err3 : s_error s3 = s_error s1) by (unfold s3; cbn; auto).
  assert (Size : s_auto s = false -> s_size s3 = s_size s) by (apply S3).
  split; [|split].
  - intros Es Al. unfold s4 in *.
    destruct (negb (s_len s3 <? s_size s3 - 1) && negb (s_auto s3)) eqn:T; [discriminate|].
    destruct D as [[De Dg]|(De & _)]; [|congruence].
    assert (Hn : n = len d).
    { unfold n. destruct (N.le_gt_cases (len d) (freespace s2)) as [|Lt]; [lia|]. exfalso.
      destruct (X2 Lt) as [Na|[k Hk]].
      - rewrite Auto, <- Auto1, Na in T. cbn in T. rewrite andb_true_r in T. apply negb_false_iff, N.ltb_lt in T.
        unfold s3, with_mem, s_size in T. cbn in T. unfold n, freespace, s_size in *. lia.
      - destruct (s_auto s) eqn:A.
        + rewrite Al in Hk; auto. discriminate.
        + rewrite Auto in T. cbn in T. rewrite andb_true_r in T. apply negb_false_iff, N.ltb_lt in T.
          unfold s3, with_mem, s_size in T. cbn in T. unfold n, freespace, s_size in *. lia. }
    apply Full; auto.
  - intros A All. unfold s4. rewrite Auto, A. rewrite andb_false_r. rewrite Err3.
    destruct D as [[De _]|(_ & Da & _)]; auto. destruct (Da A) as [k Hk]. rewrite All in Hk. discriminate.
  - intros A Len. destruct D as [[De Dg]|(_ & _ & Db)].
    + unfold s4. assert (Lg := good_len _ _ _ I1 Dg).
      replace (s_len s3 <? s_size s3 - 1) with true; [cbn [negb andb]; rewrite Err3; auto|].
      symmetry. apply N.ltb_lt. rewrite Size by auto. unfold s3, with_mem. cbn. rewrite L2, <- Lg. rewrite !len_app in *. unfold n. lia.
    + specialize (Db A). rewrite !len_app in *. lia.
Qed.

(* printf reports everything unless a realloc may fail *)
Definition told (s : vsb) (ops : list vop) : Prop :=
  s_auto s = true -> forallb (fun o => negb (is_printf o)) ops = true \/ forall n, alloc n = true.

Lemma run1_spec s st o : inv s -> (s_error s = false -> good s st) ->
  exists s', vrun1 alloc junk s o = Ok s' /\ inv s' /\ same s s' /\
    (s_error s' = false -> told s [o] -> good s' (vtext1 st o)) /\
    (s_error s = true -> o <> VClear -> s_error s' = true) /\
    (s_error s = false -> s_auto s = true -> (forall n, alloc n = true) -> indents_ok (snd st) [o] -> s_error s' = false) /\
    (s_error s = false -> s_auto s = false -> len (fst (vtext1 st o)) + 1 < s_size s -> indents_ok (snd st) [o] -> s_error s' = false).
Proof.
  intros H G. destruct st as [t ind]. destruct (s_error s) eqn:E.
  - assert (S : forall s', s' = s -> inv s' /\ same s s' /\ s_error s' = true).
    { intros s' ->. split; auto. split; auto. apply same_refl. }
    destruct o as [d|d|d|c| |i]; cbn [vrun1].
    + exists s. unfold VSB_bcat. rewrite check_ok by auto. cbn [bind]. rewrite E. split; auto. split; auto. split; [apply same_refl|]. repeat split; congruence.
    + exists s. unfold VSB_cat. rewrite check_ok by auto. cbn [bind]. rewrite E. split; auto. split; auto. split; [apply same_refl|]. repeat split; congruence.
    + exists s. unfold VSB_printf. rewrite check_ok by auto. cbn [bind]. rewrite E. split; auto. split; auto. split; [apply same_refl|]. repeat split; congruence.
    + exists s. unfold VSB_put_byte. rewrite check_ok by auto. cbn [bind]. rewrite E. split; auto. split; auto. split; [apply same_refl|]. repeat split; congruence.
    + unfold VSB_clear. destruct H as (A & B & C). replace (s_len s <? s_size s) with true by (symmetry; apply N.ltb_lt; auto). cbn [guard bind].
      eexists. split; [reflexivity|]. split. { unfold inv, s_size. cbn. fold (s_size s). split; [lia|split; [auto|lia]]. }
      split; [split; auto|]. split; [intros _ _; split; auto|]. split; [congruence|]. split; congruence.
    + unfold VSB_indent. destruct H as (A & B & C). replace (s_len s <? s_size s) with true by (symmetry; apply N.ltb_lt; auto). cbn [guard bind].
      destruct (Z.ltb_spec (s_indent s + i) 0).
      * exists (with_error s). split; auto. split; [exact (conj A (conj B C))|]. split; [split; auto|]. cbn. split; [congruence|]. split; [auto|]. split; congruence.
      * eexists. split; [reflexivity|]. split; [split; auto|]. split; [split; auto|]. cbn. rewrite E. split; [congruence|]. split; [auto|]. split; congruence.
  - specialize (G eq_refl).
    destruct o as [d|d|d|c| |i]; cbn [vrun1 vtext1 fst snd indents_ok].
    + destruct (bcat_spec s t ind d H G E) as (s' & X & I & S & A & B & C). exists s'. rewrite X. split; auto. split; auto. split; auto. split; auto. split; [congruence|]. split; auto.
    + destruct (cat_spec d s t ind H G E) as (s' & X & I & S & A & B & C). exists s'.
      unfold VSB_cat. rewrite check_ok by auto. cbn [bind]. rewrite E, X. split; auto. split; auto. split; auto. split; auto. split; [congruence|]. split; auto.
    + destruct (printf_spec s t ind d H G E) as (s' & X & I & S & A & B & C). exists s'. rewrite X. split; auto. split; auto. split; auto.
      split. { intros Es T. apply A; auto. intros Au. destruct (T Au) as [T'|T']; auto. discriminate. }
      split; [congruence|]. split; auto.
    + destruct (put_byte_spec s t ind c H G E) as (s' & X & I & S & A & B & C). exists s'. rewrite X. split; auto. split; auto. split; auto. split; auto. split; [congruence|]. split; auto.
    + unfold VSB_clear. destruct H as (A & B & C). replace (s_len s <? s_size s) with true by (symmetry; apply N.ltb_lt; auto). cbn [guard bind].
      eexists. split; [reflexivity|]. split. { unfold inv, s_size. cbn. fold (s_size s). split; [lia|split; [auto|lia]]. }
      split; [split; auto|]. split; [intros _ _; split; auto|]. split; [congruence|]. split; auto.
    + unfold VSB_indent. destruct H as (A & B & C). destruct G as [Ga Gb]. cbn [fst snd] in *.
      replace (s_len s <? s_size s) with true by (symmetry; apply N.ltb_lt; auto). cbn [guard bind].
      destruct (Z.ltb_spec (s_indent s + i) 0).
      * exists (with_error s). split; auto. split; [exact (conj A (conj B C))|]. split; [split; auto|]. cbn. split; [congruence|]. split; [auto|]. split; [intros _ _ _ (X & _); lia|intros _ _ _ (X & _); lia].
      * eexists. split; [reflexivity|]. split; [split; auto|]. split; [split; auto|].
        split; [intros _ _; split; cbn; [auto|lia]|]. cbn. split; [congruence|]. split; auto.
Qed.


Lemma run_safe : forall ops s, inv s -> exists s', vrun alloc junk s ops = Ok s' /\ inv s' /\ same s s'.
Proof.
  induction ops as [|o ops IH]; intros s H.
  - exists s. split; auto. split; auto. apply same_refl.
  - cbn [vrun]. destruct (run1_spec s (firstn (N.to_nat (s_len s)) (s_mem s), Z.to_N (s_indent s)) o H) as (s1 & E1 & I1 & S1 & _).
    { intros _. split; cbn; auto. destruct H as (_ & _ & C). lia. }
    rewrite E1. cbn [bind]. destruct (IH s1 I1) as (s2 & E2 & I2 & S2).
    exists s2. split; auto. split; auto. eapply same_trans; eauto.
Qed.

Lemma run_spec : forall ops s st, inv s -> (s_error s = false -> good s st) -> told s ops ->
  exists s', vrun alloc junk s ops = Ok s' /\ inv s' /\ same s s' /\
    (s_error s' = false -> good s' (fold_left vtext1 ops st)) /\
    (s_error s = false -> s_auto s = true -> (forall n, alloc n = true) -> indents_ok (snd st) ops -> s_error s' = false) /\
    (s_error s = false -> s_auto s = false -> stays_below (s_size s - 1) st ops -> indents_ok (snd st) ops -> s_error s' = false).
Proof.
  induction ops as [|o ops IH]; intros s st H G T.
  - exists s. cbn. split; auto. split; auto. split; [apply same_refl|]. auto.
  - cbn [vrun fold_left]. destruct (run1_spec s st o H G) as (s1 & E1 & I1 & S1 & G1 & _ & A1 & B1).
    rewrite E1. cbn [bind]. destruct S1 as [Sa Sb].
    assert (T1 : told s [o]).
    { intros A. destruct (T A) as [X|X]; auto. cbn in *. apply andb_prop in X. destruct X as [X _]. rewrite X. auto. }
    assert (T2 : told s1 ops).
    { intros A. rewrite Sa in A. destruct (T A) as [X|X]; auto. cbn in *. apply andb_prop in X. destruct X as [_ X]. auto. }
    destruct (IH s1 (vtext1 st o) I1) as (s2 & E2 & I2 & S2 & G2 & A2 & B2); auto.
    exists s2. split; auto. split; auto. split; [eapply same_trans; [split|]; eauto|]. split; auto.
    assert (IO : indents_ok (snd st) (o :: ops) -> indents_ok (snd st) [o] /\ indents_ok (snd (vtext1 st o)) ops).
    { clear. destruct st as [t ind]. destruct o; cbn; tauto. }
    split.
    + intros E A Al I. destruct (IO I) as [Io Ir]. apply A2; auto. congruence.
    + intros E A St I. destruct (IO I) as [Io Ir]. cbn [stays_below] in St. destruct St as [Sc St].
      apply B2; auto; [|congruence|rewrite Sb by auto; auto].
      apply B1; auto. destruct ops; cbn in St; lia.
Qed.

Lemma finish_spec s : inv s -> exists f, VSB_finish s = Ok f /\
  VSB_len f = Ok (if s_error s then None else Some (s_len s)) /\
  exists m, VSB_data f = Ok m /\ firstn (N.to_nat (s_len s + 1)) m = firstn (N.to_nat (s_len s)) (s_mem s) ++ [0].
Proof.
  intros H. unfold VSB_finish. rewrite check_ok by auto. cbn [bind].
  destruct H as (A & B & C). destruct (wr_ok (s_mem s) (s_len s) [0]) as (m & W & M & F & _).
  { change (len [0]) with 1. unfold s_size in A. lia. }
  rewrite W. cbn [bind]. eexists. split; [reflexivity|]. unfold VSB_len, VSB_data, s_size in *. cbn [s_mem s_len s_fin s_error].
  rewrite M. replace (s_len s <? len (s_mem s)) with true by (symmetry; apply N.ltb_lt; auto). cbn [guard bind].
  split; auto. exists m. split; auto.
Qed.
End Vsb.

Lemma inv_new alloc junk s : VSB_new_auto alloc junk = Some s ->
  inv s /\ good s ([], 0) /\ s_error s = false /\ s_auto s = true.
Proof.
  unfold VSB_new_auto. destruct (alloc (VSB_extendsize 0)); [|discriminate]. intros E. injection E as <-.
  split; [|split; [split; reflexivity|repeat split; reflexivity]].
  unfold inv, s_size. cbn [s_mem s_len s_fin s_indent]. rewrite (fresh_len alloc). split; [vm_compute; auto|]. split; auto. lia.
Qed.
Lemma inv_fixed buf s : VSB_new_fixed buf = Ok s ->
  inv s /\ good s ([], 0) /\ s_error s = false /\ s_auto s = false /\ s_size s = len buf.
Proof.
  unfold VSB_new_fixed. destruct (N.ltb_spec 1 (len buf)); [|discriminate]. cbn [guard bind]. intros E. injection E as <-.
  split; [|split; [split; reflexivity|repeat split; reflexivity]].
  unfold inv, s_size. cbn [s_mem s_len s_fin s_indent]. split; [lia|]. split; auto. lia.
Qed.

Lemma result s st : inv s -> good s st -> s_error s = false -> holds s (fst st).
Proof.
  intros H [G _] E. destruct (finish_spec s H) as (f & F & L & m & D & M). rewrite E in L.
  assert (Len : len (fst st) = s_len s).
  { rewrite <- G. unfold len. destruct H as (A & _). unfold s_size, len in A. rewrite firstn_length. lia. }
  exists f, m. rewrite Len. split; auto. split; auto. split; auto. rewrite M, G. auto.
Qed.

Lemma auto_exact alloc junk ops s : (forall n, alloc n = true) -> VSB_new_auto alloc junk = Some s ->
  indents_ok 0 ops ->
  exists s', vrun alloc junk s ops = Ok s' /\ holds s' (fst (vtext ops)).
Proof.
  intros Al N I. destruct (inv_new _ _ _ N) as (H & G & E & A).
  destruct (run_spec alloc junk ops s ([], 0) H (fun _ => G)) as (s' & R & I' & _ & G' & A' & _).
  { intros _. auto. }
  exists s'. split; auto. assert (Es : s_error s' = false) by (apply A'; auto).
  apply (result s' (vtext ops)); auto; apply G'; auto.
Qed.

Lemma auto_safe alloc junk ops s : VSB_new_auto alloc junk = Some s ->
  exists s', vrun alloc junk s ops = Ok s' /\
    (forallb (fun o => negb (is_printf o)) ops = true -> reports s' \/ holds s' (fst (vtext ops))).
Proof.
  intros N. destruct (inv_new _ _ _ N) as (H & G & E & A).
  destruct (run_safe alloc junk ops s H) as (s' & R & I' & _). exists s'. split; auto. intros P.
  destruct (run_spec alloc junk ops s ([], 0) H (fun _ => G)) as (s2 & R2 & I2 & _ & G2 & _).
  { intros _. auto. }
  rewrite R in R2. injection R2 as <-.
  destruct (s_error s') eqn:Es.
  - left. destruct (finish_spec s' I') as (f & F & L & _). rewrite Es in L. exists f. auto.
  - right. apply (result s' (vtext ops)); auto; apply G2; auto.
Qed.

Lemma vrun_app alloc junk a : forall s b, vrun alloc junk s (a ++ b) = let* s1 := vrun alloc junk s a in vrun alloc junk s1 b.
Proof.
  induction a as [|o a IH]; intros s b; auto. cbn [app vrun]. destruct (vrun1 alloc junk s o); auto. cbn [bind]. apply IH.
Qed.
Lemma clear_fresh s : inv s -> exists s', VSB_clear s = Ok s' /\ inv s' /\ good s' ([], 0) /\ s_error s' = false /\ same s s'.
Proof.
  intros (A & B & C). unfold VSB_clear. replace (s_len s <? s_size s) with true by (symmetry; apply N.ltb_lt; auto). cbn [guard bind].
  eexists. split; [reflexivity|]. split. { unfold inv, s_size. cbn. fold (s_size s). split; [lia|split; [auto|lia]]. }
  split; [split; auto|]. split; auto. split; auto.
Qed.

Lemma fixed_exact alloc junk ops buf s : VSB_new_fixed buf = Ok s ->
  exists s', vrun alloc junk s ops = Ok s' /\
    (reports s' \/ holds s' (fst (vtext ops))) /\
    (stays_below (len buf - 1) ([], 0) ops -> indents_ok 0 ops -> holds s' (fst (vtext ops))) /\
    (forall a b, ops = a ++ VClear :: b -> stays_below (len buf - 1) ([], 0) b -> indents_ok 0 b ->
       fst (vtext ops) = fst (vtext b) /\ holds s' (fst (vtext b))) /\
    (len buf <= len (fst (vtext ops)) -> reports s').
Proof.
  intros N. destruct (inv_fixed _ _ N) as (H & G & E & A & Sz).
  destruct (run_spec alloc junk ops s ([], 0) H (fun _ => G)) as (s' & R & I' & [Sa Ss] & G' & _ & B').
  { intros X. congruence. }
  exists s'. split; auto.
  assert (Hg : s_error s' = false -> holds s' (fst (vtext ops))).
  { intros Es. apply (result s' (vtext ops)); auto; apply G'; auto. }
  assert (Hr : s_error s' = true -> reports s').
  { intros Es. destruct (finish_spec s' I') as (f & F & L & _). rewrite Es in L. exists f. auto. }
  split; [destruct (s_error s'); auto|]. split.
  { intros St I. apply Hg. apply B'; auto. rewrite Sz. auto. }
  split.
  - intros a b -> St I. assert (V : vtext (a ++ VClear :: b) = vtext b).
    { unfold vtext. rewrite fold_left_app. cbn [fold_left]. destruct (fold_left vtext1 a ([], 0)). auto. }
    rewrite V in *. split; auto. apply Hg.
    destruct (run_safe alloc junk a s H) as (s1 & R1 & I1 & [Sa1 Ss1]).
    rewrite vrun_app, R1 in R. cbn [bind vrun vrun1] in R.
    destruct (clear_fresh s1 I1) as (s2 & R2 & I2 & G2 & E2 & [Sa2 Ss2]). rewrite R2 in R. cbn [bind] in R.
    destruct (run_spec alloc junk b s2 ([], 0) I2 (fun _ => G2)) as (s3 & R3 & _ & _ & _ & _ & B3).
    { intros X. congruence. }
    rewrite R in R3. injection R3 as <-. apply B3; auto; [congruence|].
    rewrite Ss2, Ss1, Sz by congruence. auto.
  - intros L. apply Hr. destruct (s_error s') eqn:Es; auto. exfalso.
    specialize (G' eq_refl). change (fold_left vtext1 ops ([], 0)) with (vtext ops) in G'.
    destruct (vtext ops) as [t ind]. assert (X : len t = s_len s') by (eapply (good_len alloc); eauto). cbn in L. destruct I' as (Y & _).
    rewrite Ss, Sz in Y by auto. lia.
Qed.
