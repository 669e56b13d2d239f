(* Lemmas about the bucket table and the merge of /repo/index.c. *)
From Coq Require Import List NArith ZArith Bool Lia Sorting.Sorted Sorting.Permutation.
From Coq Require Import ZifyBool ZifyNat ZifyN.
From Verif Require Import Base BaseLemmas IndexModel IndexSpec IndexProofs.
Ltac Zify.zify_post_hook ::= Z.div_mod_to_equations.
Open Scope N_scope.

(** * Prediction *)

Definition frac_of (r : bytes) : N := be_dec (firstn 8 r).
Definition bucket_of (bb : N) (r : bytes) : N := frac_of r / 2 ^ (64 - bb).
Definition upos (nr : N) (r : bytes) : N := predict nr (frac_of r).

Lemma frac_bound r : is_rec r -> frac_of r < 2 ^ 64.
Proof.
  intros [L B]. unfold frac_of. 
  assert (H := be_dec_bound (firstn 8 r) (isbytes_firstn 8 r B)).
  unfold len in H. rewrite firstn_length, L in H. exact H.
Qed.

Lemma predict_eq nr f : nr < 2 ^ 40 -> f < 2 ^ 64 -> predict nr f = (f / 2 ^ 40) * nr / 2 ^ 24.
Proof.
  intros. unfold predict. rewrite (N.mod_small (_ * _)); auto.
  change (2 ^ 64) with (2 ^ 24 * 2 ^ 40).
  assert (f / 2 ^ 40 < 2 ^ 24).
  { apply N.div_lt_upper_bound; [discriminate|]. exact H0. }
  apply N.mul_lt_mono; auto.
Qed.

Lemma predict_le nr f : nr < 2 ^ 40 -> f < 2 ^ 64 -> predict nr f <= nr.
Proof.
  intros. rewrite predict_eq by auto.
  assert (f / 2 ^ 40 < 2 ^ 24).
  { apply N.div_lt_upper_bound; [discriminate|]. exact H0. }
  apply N.div_le_upper_bound; [discriminate|]. apply N.mul_le_mono_r. lia.
Qed.

Lemma predict_mono nr f g : nr < 2 ^ 40 -> f <= g -> g < 2 ^ 64 -> predict nr f <= predict nr g.
Proof.
  intros. rewrite !predict_eq by lia.
  apply N.div_le_mono; [discriminate|]. apply N.mul_le_mono_r. apply N.div_le_mono; [discriminate|auto].
Qed.

Lemma predict_mono_nr nr nr' f : nr <= nr' -> nr' < 2 ^ 40 -> f < 2 ^ 64 -> predict nr f <= predict nr' f.
Proof.
  intros. rewrite !predict_eq by lia.
  apply N.div_le_mono; [discriminate|]. apply N.mul_le_mono_l. auto.
Qed.

Lemma frac_mono r s : is_rec r -> is_rec s -> lexle r s -> frac_of r <= frac_of s.
Proof.
  intros [L B] [L' B'] H. unfold frac_of. apply be_dec_mono; auto using isbytes_firstn.
  - rewrite !firstn_length; lia.
  - apply lexle_firstn; auto.
Qed.

Lemma bucket_bound bb r : is_rec r -> 0 < bb <= 64 -> bucket_of bb r < 2 ^ bb.
Proof.
  intros Hr Hb. unfold bucket_of. apply N.div_lt_upper_bound.
  - apply N.pow_nonzero; lia.
  - rewrite <- N.pow_add_r. replace (64 - bb + bb) with 64 by lia. apply frac_bound; auto.
Qed.

(** * Bucket offsets as a minimum *)

(* smallest (position - prediction) of the records of bucket b *)
Fixpoint off_from (i : Z) (bb nr b : N) (R : list bytes) (acc : Z) : Z :=
  match R with
  | [] => acc
  | r :: R' =>
      off_from (i + 1) bb nr b R'
        (if bucket_of bb r =? b then Z.min acc (i - Z.of_N (upos nr r)) else acc)
  end.
Definition off_spec (bb nr b : N) (R : list bytes) : Z :=
  off_from 0 bb nr b R (2 ^ 31).

Lemma off_from_app i bb nr b R S acc :
  off_from i bb nr b (R ++ S) acc =
  off_from (i + Z.of_nat (length R)) bb nr b S (off_from i bb nr b R acc).
Proof.
  revert i acc; induction R as [|r R IH]; intros; simpl app; cbn [off_from].
  - f_equal. simpl. lia.
  - rewrite IH. f_equal. simpl List.length. lia.
Qed.

Lemma off_from_le i bb nr b R acc : (off_from i bb nr b R acc <= acc)%Z.
Proof.
  revert i acc; induction R as [|r R IH]; intros; cbn [off_from]; [lia|].
  etransitivity; [apply IH|]. destruct (_ =? _); lia.
Qed.

Lemma off_from_lower i bb nr b R acc k r :
  nth_error R k = Some r -> bucket_of bb r = b ->
  (off_from i bb nr b R acc <= i + Z.of_nat k - Z.of_N (upos nr r))%Z.
Proof.
  revert i acc k; induction R as [|x R IH]; intros i acc k Hk Hb; [destruct k; discriminate|].
  destruct k; cbn [off_from nth_error] in *.
  - injection Hk as ->. rewrite Hb, N.eqb_refl.
    etransitivity; [apply off_from_le|]. lia.
  - etransitivity; [eapply IH; eauto|]. lia.
Qed.

Lemma off_from_attained i bb nr b R acc :
  off_from i bb nr b R acc = acc \/
  exists k r, nth_error R k = Some r /\ bucket_of bb r = b /\
    off_from i bb nr b R acc = (i + Z.of_nat k - Z.of_N (upos nr r))%Z.
Proof.
  revert i acc; induction R as [|x R IH]; intros; cbn [off_from]; auto.
  destruct (IH (i + 1)%Z (if bucket_of bb x =? b then Z.min acc (i - Z.of_N (upos nr x)) else acc))
    as [H | (k & r & H1 & H2 & H3)].
  - rewrite H. destruct (bucket_of bb x =? b) eqn:E; auto.
    destruct (Z.min_spec acc (i - Z.of_N (upos nr x))) as [[_ E2]|[_ E2]]; rewrite E2; auto.
    right. exists O, x. apply N.eqb_eq in E. repeat split; auto. lia.
  - right. exists (S k), r. repeat split; auto. rewrite H3. lia.
Qed.

Record bp_inv (bp : bucket) (bb nr : N) (R : list bytes) : Prop := {
  bi_bb : bbucket bp = bb;
  bi_nr : nrec bp = nr;
  bi_len : length (bkts bp) = N.to_nat (2 ^ bb);
  bi_off : forall b, 0 < b -> b < 2 ^ bb ->
           nth (N.to_nat b) (bkts bp) 0%Z = off_spec bb nr b R
}.

Lemma set_nth_length {A} n (x : A) l : length (set_nth n x l) = length l.
Proof. revert n; induction l; intros [|n]; simpl; auto. Qed.

Lemma nth_set_nth {A} n m (x d : A) l : (n < length l)%nat ->
  nth m (set_nth n x l) d = if Nat.eqb m n then x else nth m l d.
Proof.
  revert n m; induction l; intros [|n] [|m] H; simpl in *; auto; try lia.
  apply IHl. lia.
Qed.

Lemma nth_repeat' {A} (x d : A) n m : (m < n)%nat -> nth m (repeat x n) d = x.
Proof. revert m; induction n; intros [|m] H; simpl; auto; try lia. apply IHn. lia. Qed.

Lemma update_inv bp bb nr R r :
  0 < bb <= 28 -> nr < 2 ^ 40 -> len R < 2 ^ 63 ->
  Forall is_rec R -> is_rec r -> Forall (fun x => lexle x r) R ->
  bp_inv bp bb nr R -> bp_inv (bucket_update bp (len R) r) bb nr (R ++ [r]).
Proof.
  intros Hbb Hnr HR HrR Hr Hle [I1 I2 I3 I4].
  unfold bucket_update. rewrite I1, I2.
  fold (frac_of r). fold (bucket_of bb r). fold (upos nr r).
  assert (Hbnd : bucket_of bb r < 2 ^ bb) by (apply bucket_bound; auto; lia).
  set (b := bucket_of bb r) in *.
  assert (Happ : forall b', off_spec bb nr b' (R ++ [r]) =
     if b =? b' then Z.min (off_spec bb nr b' R) (Z.of_N (len R) - Z.of_N (upos nr r))
     else off_spec bb nr b' R).
  { intros b'. unfold off_spec. rewrite off_from_app. cbn [off_from]. fold b. unfold len.
    rewrite nat_N_Z. auto. }
  destruct (0 <? b) eqn:Eb.
  2:{ simpl. split; auto. intros b' Hb' Hlt. rewrite Happ.
      destruct (b =? b') eqn:E; auto. apply N.eqb_eq in E. apply N.ltb_ge in Eb. lia. }
  apply N.ltb_lt in Eb. rewrite (I4 b) by auto. cbn [andb].
  set (o := off_spec bb nr b R) in *. set (u := upos nr r) in *.
  assert (Hu : u <= nr) by (apply predict_le; auto; apply frac_bound; auto).
  assert (Ho1 : (o <= 2 ^ 31)%Z) by apply off_from_le.
  assert (Ho2 : (0 <= Z.of_N u + o)%Z).
  { assert (Hat : o = (2 ^ 31)%Z \/ exists k r, nth_error R k = Some r /\ bucket_of bb r = b /\
       o = (0 + Z.of_nat k - Z.of_N (upos nr r))%Z) by (apply off_from_attained).
    destruct Hat as [H | (k & r' & H1 & H2 & H3)].
    - rewrite H. lia.
    - rewrite H3. assert (upos nr r' <= u).
      { apply predict_mono; auto; [|apply frac_bound; auto].
        assert (Hin := nth_error_In _ _ H1). rewrite Forall_forall in *.
        apply frac_mono; auto. }
      lia. }
  rewrite Z.mod_small.
  2:{ split; auto. change (2 ^ 64)%Z with 18446744073709551616%Z.
      change (2 ^ 31)%Z with 2147483648%Z in Ho1. change (2 ^ 40) with 1099511627776 in Hnr. lia. }
  destruct (Z.of_N (len R) <? Z.of_N u + o)%Z eqn:E.
  - apply Z.ltb_lt in E. split; simpl; auto.
    + rewrite set_nth_length; auto.
    + intros b' Hb' Hlt. rewrite nth_set_nth by lia. rewrite Happ.
      destruct (b =? b') eqn:Ebb.
      * apply N.eqb_eq in Ebb. subst b'. rewrite Nat.eqb_refl. fold o. lia.
      * apply N.eqb_neq in Ebb. replace (Nat.eqb (N.to_nat b') (N.to_nat b)) with false by (symmetry; apply Nat.eqb_neq; lia).
        auto.
  - apply Z.ltb_ge in E. split; auto. intros b' Hb' Hlt. rewrite Happ.
    destruct (b =? b') eqn:Ebb; auto. apply N.eqb_eq in Ebb. subst b'. rewrite I4 by auto. fold o. lia.
Qed.

(** * A new table *)

Lemma bb_loop_spec fuel b n : 1 <= n -> n <= 2 ^ (b + N.of_nat fuel) ->
  b <= bb_loop fuel b n <= b + N.of_nat fuel /\ n <= 2 ^ bb_loop fuel b n /\
  (bb_loop fuel b n = b \/ 2 ^ (bb_loop fuel b n) < 2 * n).
Proof.
  intros Hn. revert b; induction fuel; intros b H.
  - simpl. rewrite N.add_0_r in H. repeat split; try lia.
  - cbn [bb_loop]. destruct (2 ^ b <? n) eqn:E.
    + apply N.ltb_lt in E. destruct (IHfuel (b + 1)) as (A & B & C).
      { replace (b + 1 + N.of_nat fuel) with (b + N.of_nat (S fuel)) by lia. auto. }
      repeat split; try lia. right. destruct C as [C|C]; auto. rewrite C.
      rewrite N.add_1_r, N.pow_succ_r'. lia.
    + apply N.ltb_ge in E. repeat split; try lia.
Qed.

Lemma bucket_new_ok n : 1 <= n -> n < 2 ^ 40 ->
  exists bp bb, bucket_new n = Ok bp /\ 2 <= bb <= 28 /\
    (bb = 2 \/ 2 ^ (bb + 12) < 2 * n) /\ n <= 2 ^ (bb + 12) /\ bp_inv bp bb n [].
Proof.
  intros Hn H. unfold bucket_new. replace (n <? 2 ^ 40) with true by (symmetry; apply N.ltb_lt; auto).
  cbn [guard bind]. eexists _, (bb_loop 27 14 n - 12). split; [reflexivity|].
  destruct (bb_loop_spec 27 14 n) as (A & B & C); auto.
  { change (14 + N.of_nat 27) with 41. etransitivity; [apply N.lt_le_incl; exact H|].
    apply N.pow_le_mono_r; lia. }
  remember (bb_loop 27 14 n) as x.
  assert (Hx : x <= 40).
  { destruct C as [C|C]; [lia|]. apply N.lt_succ_r. apply (N.pow_lt_mono_r_iff 2); [lia|].
    change (2 ^ N.succ 40) with (2 * 2 ^ 40). lia. }
  repeat split; try lia.
  - destruct C as [C|C]; [left; lia|right]. replace (x - 12 + 12) with x by lia. auto.
  - replace (x - 12 + 12) with x by lia. auto.
  - simpl. apply repeat_length.
  - intros b Hb Hlt. simpl. rewrite nth_repeat' by lia. auto.
Qed.

(** * Merge *)

Record m_ok (m : mstate) (bb nr : N) : Prop := {
  mo_bp : bp_inv (m_bp m) bb nr (m_out m);
  mo_n : m_n m = len (m_out m);
  mo_rec : Forall is_rec (m_out m);
  mo_sort : StronglySorted lexle (m_out m)
}.

Lemma ss_snoc R r : StronglySorted lexle R -> Forall (fun x => lexle x r) R ->
  StronglySorted lexle (R ++ [r]).
Proof.
  induction 1; intros H1; simpl; [repeat constructor|].
  inversion H1; subst. constructor; auto. apply Forall_app; split; auto.
Qed.

Lemma ss_app A B : StronglySorted lexle A -> StronglySorted lexle B ->
  (forall a b, In a A -> In b B -> lexle a b) -> StronglySorted lexle (A ++ B).
Proof.
  induction 1; intros HB H1; simpl; auto. constructor.
  - apply IHStronglySorted; auto. intros. apply H1; simpl; auto.
  - apply Forall_app; split; auto. apply Forall_forall. intros. apply H1; simpl; auto.
Qed.

Lemma emit_ok m bb nr r : 0 < bb <= 28 -> nr < 2 ^ 40 -> len (m_out m) < 2 ^ 63 ->
  m_ok m bb nr -> is_rec r -> Forall (fun x => lexle x r) (m_out m) -> m_ok (emit m r) bb nr.
Proof.
  intros Hbb Hnr HR [A B C D] Hr Hle. unfold emit. split; simpl.
  - rewrite B. apply update_inv; auto.
  - rewrite B. unfold len. rewrite app_length, Nat2N.inj_add. auto.
  - apply Forall_app; auto.
  - apply ss_snoc; auto.
Qed.

Definition below (A B : list bytes) : Prop := forall a b, In a A -> In b B -> lexle a b.

Definition small {A} (l : list A) : Prop := len l < 2 ^ 63.

Lemma merge_less_ok bb nr rec : 0 < bb <= 28 -> nr < 2 ^ 40 ->
  forall ptr m, small (m_out m ++ ptr) ->
  m_ok m bb nr -> Forall is_rec ptr -> StronglySorted lexle ptr -> below (m_out m) ptr ->
  (forall x, In x (m_out m) -> lexle x rec) ->
  exists m' less ptr', merge_less m rec ptr = (m', ptr') /\ ptr = less ++ ptr' /\
    m_out m' = m_out m ++ less /\ m_ok m' bb nr /\
    (forall x, In x less -> lex rec x = Gt) /\
    match ptr' with [] => True | p :: _ => lex rec p <> Gt end /\ below (m_out m') ptr'.
Proof.
  intros Hbb Hnr. induction ptr as [|p ptr IH]; intros m Hsm Hm Hr Hs Hb Hx.
  - exists m, [], []. cbn [merge_less]. rewrite ?app_nil_r. repeat split; auto; try apply Hm; try (simpl; tauto).
  - cbn [merge_less]. destruct (lex rec p) eqn:E.
    + exists m, [], (p :: ptr). rewrite ?app_nil_r. repeat split; auto; try apply Hm; simpl; try tauto; congruence.
    + exists m, [], (p :: ptr). rewrite ?app_nil_r. repeat split; auto; try apply Hm; simpl; try tauto; congruence.
    + inversion Hr; inversion Hs; subst.
      destruct (IH (emit m p)) as (m' & less & ptr' & A & B & C & D & F & G & H); auto.
      * unfold emit; simpl. rewrite <- app_assoc. auto.
      * apply emit_ok; auto.
        { unfold small, len in *. rewrite app_length in Hsm. simpl in Hsm. lia. }
        { apply Forall_forall. intros x Hin. apply Hb; simpl; auto. }
      * intros a b. simpl. rewrite in_app_iff. simpl. intros [Ha|[<-|[]]] Hin.
        { apply Hb; simpl; auto. }
        { rewrite Forall_forall in H6. auto. }
      * intros x. simpl. rewrite in_app_iff. simpl. intros [Ha|[<-|[]]]; auto. apply lex_gt_le; auto.
      * exists m', (p :: less), ptr'. simpl in C. rewrite <- app_assoc in C.
        repeat split; auto; try apply D.
        { simpl. f_equal. exact B. } { intros x [<-|Hin]; auto. }
Qed.

Lemma merge_skip_ok rec ptr : 
  exists eqs, ptr = eqs ++ merge_skip rec ptr /\ (forall x, In x eqs -> x = rec) /\
    match merge_skip rec ptr with [] => True | p :: _ => lex rec p <> Eq end.
Proof.
  induction ptr as [|p ptr IH]; cbn [merge_skip].
  - exists []. repeat split; simpl; tauto.
  - destruct (lex rec p) eqn:E.
    + destruct IH as (eqs & A & B & C). exists (p :: eqs). simpl. rewrite <- A. repeat split; auto.
      intros x [<-|H]; auto. apply lex_eq in E; auto.
    + exists []. repeat split; simpl; try tauto. congruence.
    + exists []. repeat split; simpl; try tauto. congruence.
Qed.

Definition notin (F : list bytes) (p : bytes) : bool := negb (existsb (bytes_eqb p) F).

Lemma notin_true F p : notin F p = true <-> ~ In p F.
Proof.
  unfold notin. rewrite negb_true_iff. split.
  - intros H Hin. assert (existsb (bytes_eqb p) F = true).
    { apply existsb_exists. exists p. split; auto. apply bytes_eqb_refl. }
    congruence.
  - intros H. destruct (existsb (bytes_eqb p) F) eqn:E; auto.
    apply existsb_exists in E. destruct E as (x & Hx & E2). apply bytes_eqb_true in E2. subst. tauto.
Qed.

Lemma filter_all {A} (f : A -> bool) l : (forall x, In x l -> f x = true) -> filter f l = l.
Proof. induction l; intros H; simpl; auto. rewrite H by (left; auto). f_equal. apply IHl. intros; apply H; right; auto. Qed.
Lemma filter_none {A} (f : A -> bool) l : (forall x, In x l -> f x = false) -> filter f l = [].
Proof. induction l; intros H; simpl; auto. rewrite H by (left; auto). apply IHl. intros; apply H; right; auto. Qed.

Lemma ss_app_inv A B : StronglySorted lexle (A ++ B) ->
  StronglySorted lexle A /\ StronglySorted lexle B /\ below A B.
Proof.
  induction A as [|a A IH]; simpl; intros H.
  - repeat split; auto. constructor. intros ? ? [].
  - inversion H; subst. destruct IH as (P & Q & R); auto. apply Forall_app in H3. destruct H3 as [H3 H4].
    repeat split; auto. { constructor; auto. }
    intros x y [<-|Hx] Hy; auto. rewrite Forall_forall in H4; auto.
Qed.

Lemma merge_loop_ok bb nr : 0 < bb <= 28 -> nr < 2 ^ 40 ->
  forall f1 m recl ptr, small (m_out m ++ f1 ++ ptr) ->
  m_ok m bb nr -> Forall is_rec f1 -> Forall is_rec ptr ->
  StronglySorted lexle f1 -> StronglySorted lexle ptr ->
  below (m_out m) f1 -> below (m_out m) ptr -> (forall x, In x f1 -> lexle recl x) ->
  exists m' rest, merge_loop m recl f1 ptr = Ok (m', rest) /\ m_ok m' bb nr /\
    Forall is_rec rest /\ StronglySorted lexle rest /\ below (m_out m') rest /\
    Permutation (m_out m' ++ rest) (m_out m ++ f1 ++ filter (notin f1) ptr) /\
    (length (m_out m' ++ rest) <= length (m_out m ++ f1 ++ ptr))%nat.
Proof.
  intros Hbb Hnr. induction f1 as [|rec f1 IH]; intros m recl ptr Hsm Hm Hf Hp Sf Sp Bf Bp Hrecl.
  - cbn [merge_loop]. exists m, ptr. repeat split; auto; try apply Hm.
    + simpl. rewrite (filter_all (notin [])) by (intros; reflexivity). auto.
  - cbn [merge_loop]. replace (lexb_le recl rec) with true.
    2:{ symmetry. unfold lexb_le. assert (lexle recl rec) by (apply Hrecl; left; auto).
        unfold lexle in H. destruct (lex recl rec); auto; congruence. }
    cbn [guard bind].
    apply Forall_cons_iff in Hf; destruct Hf as [H1 H2].
    apply StronglySorted_inv in Sf; destruct Sf as [H5 H6].
    destruct (merge_less_ok bb nr rec Hbb Hnr ptr m) as (m1 & less & ptr1 & A & B & C & D & E & F & G); auto.
    { unfold small, len in *. rewrite !app_length in *. lia. }
    { intros x Hx. apply Bf; auto. left; auto. }
    rewrite A. destruct (merge_skip_ok rec ptr1) as (eqs & SA & SB & SC).
    set (ptr2 := merge_skip rec ptr1) in *.
    subst ptr. rewrite SA in *.
    assert (Sptr := Sp). apply ss_app_inv in Sptr. destruct Sptr as (_ & Sp1 & Bl1).
    apply ss_app_inv in Sp1. destruct Sp1 as (_ & Sp2 & _).
    assert (Hgt : forall x, In x ptr2 -> lex rec x = Lt).
    { intros x Hx.
      assert (Hhd : match ptr2 with [] => True | p :: _ => lex rec p = Lt end).
      { destruct ptr2 as [|p t] eqn:Ep; auto.
        assert (lex rec p <> Eq) by exact SC.
        assert (lexle rec p).
        { destruct eqs as [|e eqs].
          - simpl in F. exact F.
          - assert (e = rec) by (apply SB; left; auto). subst e.
            apply ss_app_inv in Sp. destruct Sp as (_ & Sp' & _). simpl in Sp'.
            apply StronglySorted_inv in Sp'; destruct Sp' as [_ H9]. rewrite Forall_forall in H9. apply H9. apply in_or_app; right; left; auto. }
        unfold lexle in *. destruct (lex rec p); congruence. }
      destruct ptr2 as [|p t]; [destruct Hx|].
      destruct Hx as [<-|Hx]; auto. apply StronglySorted_inv in Sp2; destruct Sp2 as [_ H9]. rewrite Forall_forall in H9. specialize (H9 x Hx).
      unfold lexle in H9. destruct (lex p x) eqn:Epx; try congruence.
      - apply lex_eq in Epx; subst; auto.
      - eapply lex_trans_lt; eauto. }
    apply Forall_app in Hp. destruct Hp as [Hp1 Hp2]. apply Forall_app in Hp2. destruct Hp2 as [Hp2 Hp3].
    assert (Hm1r : forall x, In x (m_out m1) -> lexle x rec).
    { intros x. rewrite C, in_app_iff. intros [Hx|Hx].
      - apply Bf; auto. left; auto.
      - apply lex_gt_le, E; auto. }
    destruct (IH (emit m1 rec) rec ptr2) as (m' & rest & R1 & R2 & R3 & R4 & R5 & R6 & R7); auto.
    + unfold small, len in *. simpl m_out. rewrite C. rewrite !app_length in *. simpl List.length in *. lia.
    + apply emit_ok; auto.
      * unfold small, len in *. rewrite C. rewrite !app_length in *. simpl List.length in *. lia.
      * apply Forall_forall. auto.
    + intros a b. simpl. rewrite in_app_iff. simpl. intros [Ha|[<-|[]]] Hb.
      * eapply lexle_trans; [apply Hm1r; auto|]. rewrite Forall_forall in H6; auto.
      * rewrite Forall_forall in H6; auto.
    + intros a b. simpl. rewrite in_app_iff. simpl. intros [Ha|[<-|[]]] Hb.
      * apply G; auto. apply in_or_app; auto.
      * unfold lexle. rewrite Hgt; auto. discriminate.
    + rewrite Forall_forall in H6. auto.
    + exists m', rest. repeat split; auto; try apply R2.
      * etransitivity; [exact R6|]. simpl m_out. rewrite C.
        assert (F1 : filter (notin (rec :: f1)) less = less).
        { apply filter_all. intros x Hx. apply notin_true. intros [->|Hin].
          - specialize (E x Hx). rewrite lex_refl in E. discriminate.
          - specialize (E x Hx). rewrite Forall_forall in H6. specialize (H6 x Hin). unfold lexle in H6. congruence. }
        assert (F2 : filter (notin (rec :: f1)) eqs = []).
        { apply filter_none. intros x Hx. apply SB in Hx. subst x.
          destruct (notin (rec :: f1) rec) eqn:En; auto. apply notin_true in En. exfalso; apply En; left; auto. }
        assert (F3 : filter (notin (rec :: f1)) ptr2 = filter (notin f1) ptr2).
        { apply filter_ext_in. intros x Hx.
          destruct (notin f1 x) eqn:E1.
          - apply notin_true in E1. apply notin_true. intros [->|Hin]; auto.
            specialize (Hgt x Hx). rewrite lex_refl in Hgt. discriminate.
          - destruct (notin (rec :: f1) x) eqn:E2; auto. apply notin_true in E2.
            assert (notin f1 x = true). { apply notin_true. intros Hin; apply E2; right; auto. } congruence. }
        rewrite !filter_app, F1, F2, F3. simpl.
        rewrite <- !app_assoc. apply Permutation_app_head. simpl.
        rewrite Permutation_app_comm. simpl. constructor.
        rewrite <- app_assoc. apply Permutation_app_head.
        apply Permutation_app_comm.
      * etransitivity; [exact R7|]. simpl m_out. rewrite C. rewrite !app_length. simpl List.length. lia.
Qed.

Lemma fold_emit_ok bb nr : 0 < bb <= 28 -> nr < 2 ^ 40 ->
  forall rest m, small (m_out m ++ rest) -> m_ok m bb nr ->
  Forall is_rec rest -> StronglySorted lexle rest -> below (m_out m) rest ->
  m_ok (fold_left emit rest m) bb nr /\ m_out (fold_left emit rest m) = m_out m ++ rest.
Proof.
  intros Hbb Hnr. induction rest as [|r rest IH]; intros m Hsm Hm Hr Hs Hb.
  - simpl. rewrite app_nil_r. auto.
  - simpl fold_left. inversion Hr; inversion Hs; subst.
    destruct (IH (emit m r)) as [A B]; auto.
    + simpl. rewrite <- app_assoc. auto.
    + apply emit_ok; auto.
      * unfold small, len in *. rewrite app_length in Hsm. simpl in Hsm. lia.
      * apply Forall_forall. intros; apply Hb; simpl; auto.
    + intros a b. simpl. rewrite in_app_iff. simpl. intros [Ha|[<-|[]]] Hin.
      * apply Hb; simpl; auto.
      * rewrite Forall_forall in H6; auto.
    + split; auto. rewrite B. simpl. rewrite <- app_assoc. auto.
Qed.

(** * Well-formed sorted files *)

Record wf_file (file : bytes) (R : list bytes) (bb nr : N) : Prop := {
  wf_bytes : exists bp, bp_inv bp bb nr R /\ file = bucket_bytes bp ++ concat R;
  wf_bb : 2 <= bb <= 28;
  wf_nr : nr < 2 ^ 40;
  wf_size : bb = 2 \/ 2 ^ (bb + 12) < 2 * nr;
  wf_rec : Forall is_rec R;
  wf_sorted : StronglySorted lexle R;
  wf_cnt : len R <= nr
}.

Lemma map_concat_length {A} (f : A -> bytes) k l : (forall x, length (f x) = k) ->
  length (concat (map f l)) = (k * length l)%nat.
Proof. intros H. induction l; simpl; [lia|]. rewrite app_length, IHl, H. lia. Qed.

Lemma bucket_bytes_length bp bb nr R : bp_inv bp bb nr R ->
  length (bucket_bytes bp) = (8 * N.to_nat (2 ^ bb))%nat.
Proof.
  intros [A B C D]. unfold bucket_bytes. rewrite (map_concat_length _ 8).
  - rewrite set_nth_length, C. auto.
  - intros. apply be_enc_length.
Qed.

Lemma pow2_pos n : 0 < 2 ^ n.
Proof. apply N.neq_0_lt_0. apply N.pow_nonzero. lia. Qed.

(* 8-byte words of a concatenation *)
Lemma read_word (f : Z -> bytes) l rest k : (forall z, length (f z) = 8%nat) -> (k < length l)%nat ->
  firstn 8 (skipn (k * 8) (concat (map f l) ++ rest)) = f (nth k l 0%Z).
Proof.
  intros Hf. revert k; induction l as [|z l IH]; intros k Hk; [simpl in Hk; lia|].
  simpl concat. destruct k.
  - simpl skipn. rewrite <- app_assoc, firstn_app_le by (rewrite Hf; lia).
    apply firstn_all2. rewrite Hf; lia.
  - rewrite <- app_assoc. replace (S k * 8)%nat with (8 + k * 8)%nat by lia.
    rewrite <- skipn_skipn'. rewrite (skipn_app 8), Hf, Nat.sub_diag.
    rewrite (skipn_all2 (n := 8)) by (rewrite Hf; lia).
    simpl app. change (skipn 0 ?x) with x. apply IH. simpl in Hk. lia.
Qed.

Lemma read8_bucket bp bb nr R rest k : bp_inv bp bb nr R -> (k < N.to_nat (2 ^ bb))%nat ->
  read8 (bucket_bytes bp ++ rest) (N.of_nat k * 8) =
  Ok (Z.to_N ((nth k (set_nth 0 (Z.of_N (INDEX_ID * 2 ^ 48 + bb * 2 ^ 40 + nr)) (bkts bp)) 0 mod 2 ^ 64)%Z)).
Proof.
  intros [A B C D] Hk. unfold read8. unfold bucket_bytes. rewrite A, B.
  replace (N.to_nat (N.of_nat k * 8)) with (k * 8)%nat by lia.
  rewrite (read_word (fun z => be_enc 8 (Z.to_N (z mod 2 ^ 64)))).
  - rewrite be_enc_length. simpl Nat.eqb. cbv iota.
    rewrite be_dec_enc. f_equal. apply N.mod_small.
    set (z := nth _ _ _). assert (0 <= z mod 2 ^ 64 < 2 ^ 64)%Z by (apply Z.mod_pos_bound; reflexivity).
    change (256 ^ N.of_nat 8) with (Z.to_N (2 ^ 64)). apply Z2N.inj_lt; lia.
  - intros. apply be_enc_length.
  - rewrite set_nth_length, C. auto.
Qed.

Lemma header_word bp bb nr R rest : bp_inv bp bb nr R -> bb <= 28 -> nr < 2 ^ 40 ->
  read8 (bucket_bytes bp ++ rest) 0 = Ok (INDEX_ID * 2 ^ 48 + bb * 2 ^ 40 + nr).
Proof.
  intros I Hb Hn. change 0 with (N.of_nat 0 * 8). rewrite (read8_bucket bp bb nr R); auto.
  - assert (length (bkts bp) = N.to_nat (2 ^ bb)) by apply I.
    rewrite nth_set_nth. 2:{ rewrite H. assert (H1 := pow2_pos bb). lia. }
    cbn [Nat.eqb]. f_equal. rewrite Z.mod_small. { apply N2Z.id. }
    unfold INDEX_ID. change (2 ^ 64)%Z with 18446744073709551616%Z.
    change (2 ^ 48) with 281474976710656. change (2 ^ 40) with 1099511627776 in *. lia.
  - assert (H1 := pow2_pos bb). lia.
Qed.

Lemma header_fields bb nr : bb <= 28 -> nr < 2 ^ 40 ->
  let id := INDEX_ID * 2 ^ 48 + bb * 2 ^ 40 + nr in
  id / 2 ^ 48 = INDEX_ID /\ id / 2 ^ 40 mod 256 = bb /\ id mod 2 ^ 40 = nr.
Proof.
  intros Hb Hn id. unfold id, INDEX_ID.
  change (2 ^ 48) with 281474976710656. change (2 ^ 40) with 1099511627776 in *. lia.
Qed.

Lemma bucket_skip_ok bp bb nr R rest : bp_inv bp bb nr R -> bb <= 28 -> nr < 2 ^ 40 ->
  bucket_skip (bucket_bytes bp ++ rest) = Ok (2 ^ (bb + 3)).
Proof.
  intros I Hb Hn. unfold bucket_skip. rewrite (header_word bp bb nr R) by auto. cbn [bind].
  destruct (header_fields bb nr Hb Hn) as (E1 & E2 & E3). rewrite E1, E2, N.eqb_refl. cbn [guard bind].
  replace (62 <=? bb + 3) with false by (symmetry; apply N.leb_gt; lia). auto.
Qed.

Lemma pow_hdr bb : N.to_nat (2 ^ (bb + 3)) = (8 * N.to_nat (2 ^ bb))%nat.
Proof. rewrite N.pow_add_r. change (2 ^ 3) with 8. lia. Qed.

(* number of 32-byte records the table occupies *)
Definition hdrrecs (bb : N) : nat := N.to_nat (2 ^ (bb - 2)).

Lemma hdr_mult bb : 2 <= bb -> (8 * N.to_nat (2 ^ bb) = 32 * hdrrecs bb)%nat.
Proof.
  intros. unfold hdrrecs. replace bb with (2 + (bb - 2)) at 1 by lia.
  rewrite N.pow_add_r. change (2 ^ 2) with 4. lia.
Qed.

Lemma recs_len R : Forall is_rec R -> Forall (fun r : bytes => length r = 32%nat) R.
Proof. intros H. eapply Forall_impl; [|exact H]. intros r [L _]; auto. Qed.

Lemma file_chunks bp bb nr R : bp_inv bp bb nr R -> 2 <= bb -> Forall is_rec R ->
  chunks 32 (bucket_bytes bp ++ concat R) = chunks 32 (bucket_bytes bp) ++ R /\
  length (chunks 32 (bucket_bytes bp)) = hdrrecs bb.
Proof.
  intros I Hb HR. assert (L := bucket_bytes_length bp bb nr R I). rewrite hdr_mult in L by auto. split.
  - rewrite chunks_app by (try lia; eexists; exact L). f_equal.
    apply chunks_concat; [lia|]. apply recs_len; auto.
  - apply chunks_length; auto. lia.
Qed.

Lemma whole_records_skip bp bb nr R : bp_inv bp bb nr R -> 2 <= bb -> Forall is_rec R ->
  whole_records (skipn (N.to_nat (2 ^ (bb + 3))) (bucket_bytes bp ++ concat R)) = R.
Proof.
  intros I Hb HR. rewrite pow_hdr. rewrite <- (bucket_bytes_length bp bb nr R I).
  rewrite skipn_app, Nat.sub_diag, skipn_all2 by lia. simpl. unfold whole_records.
  rewrite chunks_concat by (try lia; apply recs_len; auto).
  apply filter_all. intros r Hin. rewrite Forall_forall in HR. destruct (HR r Hin) as [L _]. rewrite L. auto.
Qed.

Lemma file_len file R bb nr : wf_file file R bb nr -> len file = 32 * (N.of_nat (hdrrecs bb) + len R).
Proof.
  intros [[bp [I ->]] W1 W2 W3 W4 W5 W6]. unfold len. rewrite app_length, (bucket_bytes_length bp bb nr R I).
  rewrite (concat_length 32) by (apply recs_len; auto).
  rewrite hdr_mult by lia. lia.
Qed.

(* Everything idx_merge guarantees. *)
Lemma idx_merge_ok sorted R P :
  (sorted = None /\ R = [] \/ exists f bb nr, sorted = Some f /\ wf_file f R bb nr) ->
  P <> [] -> Forall is_rec P -> StronglySorted lexle P ->
  len P + len R + 2 ^ 27 <= 2 ^ 40 ->
  exists file R' bb nr, idx_merge sorted P = Ok file /\ wf_file file R' bb nr /\
    Permutation R' (R ++ filter (notin R) P) /\ (length R' <= length R + length P)%nat /\
    nr = len P + match sorted with None => 0 | Some f => len f / 32 end.
Proof.
  intros HS HP Hrec Hsort Hsz. unfold idx_merge.
  replace (Nat.eqb (length P) 0) with false.
  2:{ destruct P; [congruence|auto]. }
  cbn [negb guard bind].
  assert (HP1 : 1 <= len P). { destruct P; [congruence|]. unfold len. simpl List.length. lia. }
  destruct HS as [[-> ->] | (f & bb0 & nr0 & -> & W)].
  - rewrite N.add_0_r. destruct (bucket_new_ok (len P)) as (bp & bb & E & Hbb & Hw & _ & I); auto.
    { unfold len in *. simpl in Hsz. lia. }
    rewrite E. cbn [bind].
    destruct (fold_emit_ok bb (len P) ltac:(lia) ltac:(unfold len in *; simpl in Hsz; lia) P (mkM bp 0 [])) as [M O]; auto.
    + unfold small. simpl. change (2 ^ 63) with 9223372036854775808.
      change (2 ^ 40) with 1099511627776 in Hsz. lia.
    + split; simpl; auto; constructor.
    + intros ? ? [].
    + simpl in O. eexists _, P, bb, (len P). split; [reflexivity|]. rewrite O. split; [|split; [|split]].
      * split; auto; try lia.
        -- exists (m_bp (fold_left emit P (mkM bp 0 []))). split; auto.
           destruct M as [M1 _ _ _]. rewrite O in M1. auto.
      * simpl. rewrite filter_all; auto.
      * simpl. lia.
      * auto.
  - assert (FL := file_len f R bb0 nr0 W). destruct W as [[bp0 [I0 ->]] W1 W2 W3 W4 W5 W6].
    assert (Hd : len (bucket_bytes bp0 ++ concat R) / 32 = N.of_nat (hdrrecs bb0) + len R).
    { rewrite FL. rewrite N.mul_comm. apply N.div_mul. discriminate. }
    rewrite Hd.
    assert (Hh : N.of_nat (hdrrecs bb0) <= 2 ^ 26).
    { unfold hdrrecs. rewrite N2Nat.id. apply N.pow_le_mono_r; lia. }
    set (n := len P + (N.of_nat (hdrrecs bb0) + len R)) in *.
    assert (Hn40 : n < 2 ^ 40).
    { unfold n. change (2 ^ 26) with 67108864 in Hh. change (2 ^ 27) with 134217728 in Hsz. lia. }
    destruct (bucket_new_ok n) as (bp & bb & E & Hbb & Hw & _ & I); auto; try lia.
    rewrite E. cbn [bind]. rewrite (bucket_skip_ok bp0 bb0 nr0 R) by (auto; lia). cbn [bind].
    rewrite (whole_records_skip bp0 bb0 nr0 R) by (auto; lia).
    assert (Hsmall : small (@nil bytes ++ R ++ P)).
    { unfold small, len in *. simpl. rewrite app_length. change (2 ^ 63) with 9223372036854775808.
      change (2 ^ 40) with 1099511627776 in Hsz. lia. }
    destruct (merge_loop_ok bb n ltac:(lia) Hn40 R (mkM bp 0 []) (repeat 0 32) P)
      as (m' & rest & A & B & C & D & F & G & H); auto.
    + split; simpl; auto; constructor.
    + intros ? ? [].
    + intros ? ? [].
    + intros x Hx. rewrite Forall_forall in W4. destruct (W4 x Hx) as [Lx _].
      unfold lexle. clear - Lx. intros Hc.
      assert (forall n y, length y = n -> lex (repeat 0 n) y <> Gt) as Hz.
      { clear. induction n; intros [|z y] Hl; simpl in *; try discriminate.
        destruct z; simpl; [|discriminate]. apply IHn. congruence. }
      apply (Hz 32%nat x); auto.
    + rewrite A. cbn [bind].
      destruct (fold_emit_ok bb n ltac:(lia) Hn40 rest m') as [M O]; auto.
      { unfold small, len in *. simpl in H. rewrite !app_length in *. lia. }
      simpl m_out in G, H.
      eexists _, (m_out m' ++ rest), bb, n. split; [reflexivity|]. rewrite O. split; [|split; [|split]].
      * split; auto; try lia.
        -- eexists. split; eauto. destruct M as [M1 _ _ _]. rewrite O in M1. exact M1.
        -- apply Forall_app. split; auto. apply B.
        -- apply ss_app; auto. apply B.
        -- unfold n, len in *. simpl in H. rewrite !app_length in *. lia.
      * exact G.
      * simpl in H. rewrite !app_length in *. lia.
      * auto.
Qed.
