(* Housekeeping: invariant of every interleaving with inserts and crashes. *)
From Coq Require Import List NArith ZArith Bool Lia Sorting.Sorted Sorting.Permutation.
From Coq Require Import ZifyBool ZifyNat ZifyN.
From Verif Require Import Base BaseLemmas IndexModel IndexSpec IndexProofs IndexBucket IndexLookup IndexSysModel.
Ltac Zify.zify_post_hook ::= Z.div_mod_to_equations.
Open Scope N_scope.

(** * Counting records *)

Definition cnt (r : bytes) (l : list bytes) : nat := count_occ bytes_dec l r.

Lemma cnt_app r a b : cnt r (a ++ b) = (cnt r a + cnt r b)%nat.
Proof. unfold cnt. apply count_occ_app. Qed.

Lemma cnt_in r l : In r l <-> (0 < cnt r l)%nat.
Proof. unfold cnt. rewrite (count_occ_In bytes_dec). lia. Qed.

Lemma cnt_le_length l : forall m, (forall r, cnt r l <= cnt r m)%nat -> (length l <= length m)%nat.
Proof.
  induction l as [|x l IH]; intros m H; simpl List.length; [lia|].
  assert (Hin : In x m).
  { apply cnt_in. specialize (H x). unfold cnt in *. rewrite count_occ_cons_eq in H by auto. lia. }
  apply in_split in Hin. destruct Hin as (m1 & m2 & ->).
  assert (length l <= length (m1 ++ m2))%nat.
  { apply IH. intros r. specialize (H r). revert H.
    change (m1 ++ x :: m2) with (m1 ++ [x] ++ m2). rewrite !cnt_app.
    unfold cnt. simpl count_occ. destruct (bytes_dec x r); lia. }
  rewrite app_length in *. simpl List.length. lia.
Qed.

Lemma cnt_incl l m : (forall r, cnt r l <= cnt r m)%nat -> incl l m.
Proof. intros H r Hr. apply cnt_in in Hr. apply cnt_in. specialize (H r). lia. Qed.

Lemma cnt_perm l m r : Permutation l m -> cnt r l = cnt r m.
Proof. intros H. unfold cnt. revert r. apply (Permutation_count_occ bytes_dec). auto. Qed.

Lemma cnt_filter_notin R P r : cnt r (filter (notin R) P) = if in_dec bytes_dec r R then O else cnt r P.
Proof.
  unfold cnt. induction P as [|p P IH]; simpl.
  - destruct (in_dec _ _ _); auto.
  - destruct (notin R p) eqn:E; simpl; destruct (bytes_dec p r) as [->|Hne]; rewrite IH.
    + destruct (in_dec bytes_dec r R) as [Hi|]; auto.
      exfalso. apply notin_true in E. contradiction.
    + auto.
    + destruct (in_dec bytes_dec r R) as [Hi|Hn]; auto.
      apply notin_true in Hn. congruence.
    + auto.
Qed.

Lemma cnt_firstn r k l : (cnt r (firstn k l) <= cnt r l)%nat.
Proof. rewrite <- (firstn_skipn k l) at 2. rewrite cnt_app. lia. Qed.
Lemma cnt_skipn r k l : (cnt r (skipn k l) <= cnt r l)%nat.
Proof. rewrite <- (firstn_skipn k l) at 2. rewrite cnt_app. lia. Qed.

(** * Sorting *)
Lemma ins_rec_perm r l : Permutation (ins_rec r l) (r :: l).
Proof.
  induction l as [|x l IH]; simpl; auto. destruct (lexb_le r x); auto.
  rewrite IH. apply perm_swap.
Qed.

Lemma sort_recs_perm l : Permutation (sort_recs l) l.
Proof. induction l; simpl; auto. unfold sort_recs in *. simpl. rewrite ins_rec_perm. auto. Qed.

Lemma lexb_le_spec a b : lexb_le a b = true <-> lexle a b.
Proof. unfold lexb_le, lexle. destruct (lex a b); split; intros; try congruence; auto. Qed.

Lemma ins_rec_sorted r l : StronglySorted lexle l -> StronglySorted lexle (ins_rec r l).
Proof.
  induction l as [|x l IH]; intros H; simpl.
  - repeat constructor.
  - apply StronglySorted_inv in H. destruct H as [H1 H2].
    destruct (lexb_le r x) eqn:E.
    + apply lexb_le_spec in E. constructor. { constructor; auto. }
      constructor; auto. eapply Forall_impl; [|exact H2]. intros; eapply lexle_trans; eauto.
    + constructor; auto.
      assert (Hx : lexle x r).
      { destruct (lexle_total x r); auto. apply lexb_le_spec in H. congruence. }
      eapply Permutation_Forall. { apply Permutation_sym, ins_rec_perm. }
      constructor; auto.
Qed.

Lemma sort_recs_sorted l : StronglySorted lexle (sort_recs l).
Proof. induction l; simpl. constructor. apply ins_rec_sorted. auto. Qed.

(** * The invariant *)

(* what was in the sorted file stays there, with the same multiplicity *)
Definition grow (S S' : list bytes) : Prop := forall r, In r S -> cnt r S' = cnt r S.

Lemma grow_refl S : grow S S.
Proof. intros r _. auto. Qed.
Lemma grow_incl S S' : grow S S' -> incl S S'.
Proof. intros H r Hr. apply cnt_in. rewrite H by auto. apply cnt_in. auto. Qed.
Lemma grow_trans a b c : grow a b -> grow b c -> grow a c.
Proof. intros H1 H2 r Hr. rewrite H2, H1; auto. apply (grow_incl _ _ H1). auto. Qed.


Definition orec (I : list (list bytes)) (o : option nat) : list bytes :=
  match o with Some i => nth i I [] | None => [] end.

Definition crit (pc : hk_pc) : bool :=
  match pc with HHold | HDone | HAbort => false | _ => true end.

Definition pc_ok (L S : list bytes) (I : list (list bytes)) (st : ifs) (pc : hk_pc) : Prop :=
  match pc with
  | HUnlinkApp => exists i, f_app st = Some i /\ f_hk st = Some i
  | HOpen again => exists i, f_hk st = Some i
  | HRead again i pos => f_hk st = Some i /\ exists k, pos = (32 * k)%nat /\
      (k <= length (nth i I []))%nat /\ incl (firstn k (nth i I [])) S
  | HMerge again i pos chunk full => f_hk st = Some i /\ exists k, pos = (32 * k)%nat /\
      (k <= length (nth i I []))%nat /\ chunk <> [] /\ StronglySorted lexle chunk /\
      (forall r, cnt r chunk <= cnt r (nth i I []))%nat /\
      incl (firstn k (nth i I [])) (S ++ chunk) /\
      (full = false -> k = length (nth i I []) \/ f_app st = Some i)
  | HRename again i pos new full => f_hk st = Some i /\ exists k S' bb nr, pos = (32 * k)%nat /\
      (k <= length (nth i I []))%nat /\ wf_file new S' bb nr /\ grow S S' /\
      (forall r, cnt r S' <= cnt r L)%nat /\
      incl (firstn k (nth i I [])) S' /\
      (full = false -> k = length (nth i I []) \/ f_app st = Some i)
  | HUnlinkHk again => exists i, f_hk st = Some i /\ (incl (nth i I []) S \/ f_app st = Some i)
  | HAbort => False
  | _ => True
  end.

Record hinv (L : list bytes) (y : hsys) (S : list bytes) (I : list (list bytes)) : Prop := {
  hi_s : sorted_ok (f_sorted (y_fs y)) S;
  hi_i : f_ino (y_fs y) = map (@concat N) I;
  hi_rec : Forall is_rec L;
  hi_off : Forall rec_off_ok L;
  hi_cs : forall r, (cnt r S <= cnt r L)%nat;
  hi_ci : forall i r, (cnt r (nth i I []) <= cnt r L)%nat;
  hi_app : forall i, f_app (y_fs y) = Some i -> (i < length I)%nat;
  hi_hk : forall i, f_hk (y_fs y) = Some i -> (i < length I)%nat;
  hi_vis : forall r, In r L -> In r S \/ In r (orec I (f_app (y_fs y))) \/ In r (orec I (f_hk (y_fs y)));
  hi_mx : forall j k p q, nth_error (y_pc y) j = Some p -> nth_error (y_pc y) k = Some q ->
          crit p = true -> crit q = true -> j = k;
  hi_hold : forall j p, nth_error (y_pc y) j = Some p -> crit p = true -> f_hold (y_fs y) = true;
  hi_pc : forall j p, nth_error (y_pc y) j = Some p -> pc_ok L S I (y_fs y) p
}.

Lemma hinv_empty : hinv [] (mkSys ifs_empty []) [] [].
Proof.
  constructor; simpl; auto; try discriminate; try (intros j; destruct j; discriminate).
  - left; auto.
  - intros i r; destruct i; auto.
Qed.

Lemma nth_error_set_nth {A} k j (x : A) l :
  nth_error (set_nth k x l) j =
  if Nat.eqb j k then (match nth_error l k with Some _ => Some x | None => None end) else nth_error l j.
Proof.
  revert k j; induction l as [|y l IH]; intros k j.
  - destruct k, j; simpl; auto. destruct (Nat.eqb _ _); auto.
  - destruct k, j; simpl; auto.
Qed.

Lemma set_nth_snoc {A} (l : list A) x y : set_nth (length l) x (l ++ [y]) = l ++ [x].
Proof. induction l; simpl; auto. rewrite IHl; auto. Qed.

Lemma map_set_nth {A B} (f : A -> B) k x l : map f (set_nth k x l) = set_nth k (f x) (map f l).
Proof. revert k; induction l; intros [|k]; simpl; auto. rewrite IHl. auto. Qed.

Lemma ino_data_concat st (I : list (list bytes)) i : f_ino st = map (@concat N) I -> ino_data st i = concat (nth i I []).
Proof.
  intros H. unfold ino_data. rewrite H. change (@nil N) with (concat (@nil bytes)). apply (map_nth (@concat N)).
Qed.

Lemma hinv_recs L y S I : hinv L y S I -> Forall is_rec S /\ forall i, Forall is_rec (nth i I []).
Proof.
  intros H. split.
  - rewrite Forall_forall. intros r Hr. apply (cnt_incl _ _ (hi_cs _ _ _ _ H)) in Hr.
    assert (X := hi_rec _ _ _ _ H). rewrite Forall_forall in X. auto.
  - intros i. rewrite Forall_forall. intros r Hr. apply (cnt_incl _ L) in Hr. 2:{ intros; apply H. }
    assert (X := hi_rec _ _ _ _ H). rewrite Forall_forall in X. auto.
Qed.

(** Insert *)
Lemma concat_app' (a b : list bytes) : concat a ++ concat b = concat (a ++ b).
Proof. symmetry. apply concat_app. Qed.

(* write(2) to the inode which still is the appendix *)
Lemma hinv_write L st pcs S I a r :
  hinv L (mkSys st pcs) S I -> f_app st = Some a -> is_rec r -> rec_off_ok r ->
  exists I', hinv (L ++ [r]) (mkSys (write_append st a r) pcs) S I' /\
    (forall i, incl (nth i I []) (nth i I' [])) /\
    nth a I' [] = nth a I [] ++ [r].
Proof.
  intros H Ea Hr Hro.
  assert (Hcat : concat [r] = r) by (simpl; apply app_nil_r).
  destruct H as [Hs Hi Hrec Hoff Hcs Hci Ha Hh Hv Hm Hho Hp]. cbn [y_fs y_pc] in *.
  assert (CntL : forall x l, (cnt x l <= cnt x L)%nat -> (cnt x l <= cnt x (L ++ [r]))%nat) by (intros; rewrite cnt_app; lia).
  assert (FR : Forall is_rec (L ++ [r])) by (apply Forall_app; auto).
  assert (FO : Forall rec_off_ok (L ++ [r])) by (apply Forall_app; auto).
  assert (Hla : (a < length I)%nat) by auto.
  set (I' := set_nth a (nth a I [] ++ [r]) I).
  assert (Nth : forall i, nth i I' [] = if Nat.eqb i a then nth a I [] ++ [r] else nth i I []).
  { intros i. unfold I'. rewrite nth_set_nth; auto. }
  assert (Incl : forall i, incl (nth i I []) (nth i I' [])).
  { intros i. rewrite Nth. destruct (Nat.eqb_spec i a); subst; auto using incl_appl, incl_refl. }
  assert (Fst : forall i k, (k <= length (nth i I []))%nat -> firstn k (nth i I' []) = firstn k (nth i I [])).
  { intros i k Hk'. rewrite Nth. destruct (Nat.eqb_spec i a); subst; auto. apply firstn_app_le; auto. }
  assert (Len : forall i, (length (nth i I []) <= length (nth i I' []))%nat).
  { intros i. rewrite Nth. destruct (Nat.eqb_spec i a); subst; auto. rewrite app_length. lia. }
  assert (LenE : forall i k, k = length (nth i I []) \/ Some a = Some i ->  k = length (nth i I' []) \/ Some a = Some i).
  { intros i k [->|Hx]; auto. rewrite Nth. destruct (Nat.eqb_spec i a); subst; auto. }
  exists I'. split; [|split; [auto|rewrite Nth, Nat.eqb_refl; auto]].
  unfold write_append. rewrite Ea. constructor; cbn [y_fs y_pc f_sorted f_app f_hk f_ino f_hold]; auto.
  + unfold I'. rewrite map_set_nth, Hi. f_equal. rewrite (ino_data_concat st I a Hi).
    rewrite concat_app, Hcat. auto.
  + intros i x. rewrite Nth. destruct (Nat.eqb_spec i a).
    * subst. rewrite !cnt_app. specialize (Hci a x). lia.
    * auto.
  + intros i [= <-]. unfold I'. rewrite set_nth_length. auto.
  + intros i Hx. unfold I'. rewrite set_nth_length. auto.
  + intros x Hx. apply in_app_or in Hx. rewrite Ea in Hv. destruct Hx as [Hx|[<-|[]]].
    * destruct (Hv x Hx) as [?|[?|?]]; auto.
      -- right; left. simpl in *. apply Incl; auto.
      -- right; right. destruct (f_hk st); simpl in *; auto. apply Incl; auto.
    * right; left. simpl. rewrite Nth, Nat.eqb_refl. apply in_or_app. right. left. auto.
  + intros j p Hj. specialize (Hp j p Hj). unfold pc_ok in *. rewrite Ea in Hp.
    destruct p; cbn [f_app f_hk]; auto.
    * destruct Hp as (Hp1 & k & Hp2 & Hp3 & Hp4). split; auto. exists k. rewrite Fst by auto.
      repeat split; auto. specialize (Len ino). lia.
    * destruct Hp as (Hp1 & k & Hp2 & Hp3 & Hp4 & Hp5 & Hp6 & Hp7 & Hp8). split; auto. exists k. rewrite Fst by auto.
      repeat split; auto. { specialize (Len ino). lia. }
      intros x. rewrite Nth. specialize (Hp6 x). destruct (Nat.eqb_spec ino a); subst; auto. rewrite cnt_app. lia.
    * destruct Hp as (Hp1 & k & S' & bb & nr & Hp2 & Hp3 & Hp4 & Hp5 & Hp6 & Hp7 & Hp8).
      split; auto. exists k, S', bb, nr. rewrite Fst by auto.
      repeat split; auto; try apply Hp4. { specialize (Len ino). lia. }
    * destruct Hp as (i & Hp1 & Hp2). exists i. split; auto.
      destruct Hp2 as [Hp2|Hp2]; auto. rewrite Nth. destruct (Nat.eqb_spec i a); subst; auto.
Qed.

(* open(2) with O_CREAT *)
Lemma hinv_open L st pcs S I : hinv L (mkSys st pcs) S I ->
  exists I', hinv L (mkSys (fst (open_append st)) pcs) S I' /\
    (forall i, nth i I' [] = nth i I []) /\
    f_app (fst (open_append st)) = Some (snd (open_append st)) /\
    f_sorted (fst (open_append st)) = f_sorted st /\ f_hk (fst (open_append st)) = f_hk st /\
    f_hold (fst (open_append st)) = f_hold st /\
    nth (snd (open_append st)) I' [] = orec I (f_app st).
Proof.
  intros H. unfold open_append.
  destruct (f_app st) as [a|] eqn:Ea; cbn [fst snd].
  - exists I. auto 10.
  - destruct H as [Hs Hi Hrec Hoff Hcs Hci Ha Hh Hv Hm Hho Hp]. cbn [y_fs y_pc] in *.
    assert (La : length (f_ino st) = length I) by (rewrite Hi, map_length; auto).
    set (I' := I ++ [[]]).
    assert (Nth : forall i, nth i I' [] = nth i I []).
    { intros i. unfold I'. destruct (Nat.lt_ge_cases i (length I)).
      - apply app_nth1. auto.
      - rewrite app_nth2 by auto. rewrite (nth_overflow I) by auto.
        destruct (i - length I)%nat as [|[|?]]; auto. }
    exists I'. split; [|cbn [f_app f_sorted f_hk f_hold orec]; rewrite Nth, nth_overflow by lia; auto 10].
    constructor; cbn [y_fs y_pc f_sorted f_app f_hk f_ino f_hold]; auto.
    + rewrite Hi. unfold I'. rewrite map_app. auto.
    + intros i x. rewrite Nth. auto.
    + intros i [= <-]. unfold I'. rewrite app_length. simpl. lia.
    + intros i Hx. specialize (Hh i Hx). unfold I'. rewrite app_length. lia.
    + intros x Hx. rewrite Ea in Hv. destruct (Hv x Hx) as [?|[[]|Hy]]; auto.
      right; right. destruct (f_hk st) as [h|] eqn:Eh; simpl in *; auto. rewrite Nth; auto.
    + intros j p Hj. specialize (Hp j p Hj). unfold pc_ok in *. rewrite Ea in Hp.
      destruct p; cbn [f_app f_hk]; auto; rewrite ?Nth; auto.
      * destruct Hp as (i & Hp1 & _). discriminate.
      * destruct Hp as (Hp1 & k & Hp2 & Hp3 & Hp4 & Hp5 & Hp6 & Hp7 & Hp8). split; auto. exists k.
        repeat split; auto. intros Hf. destruct (Hp8 Hf); auto. discriminate.
      * destruct Hp as (Hp1 & k & S' & bb & nr & Hp2 & Hp3 & Hp4 & Hp5 & Hp6 & Hp7 & Hp8).
        split; auto. exists k, S', bb, nr.
        repeat split; auto; try apply Hp4. intros Hf. destruct (Hp8 Hf); auto. discriminate.
      * destruct Hp as (i & Hp1 & Hp2). exists i. split; auto. rewrite Nth.
        destruct Hp2 as [Hp2|Hp2]; auto. discriminate.
Qed.

Lemma hinv_insert id_size L y S I key flags silo offset cont :
  hinv L y S I -> 16 <= id_size -> ok_op (OInsert key flags silo offset cont) ->
  exists r st, IDX_Insert id_size (y_fs y) key flags silo offset cont = Ok st /\
    ent_of_rec r = ideal key flags silo offset cont /\
    exists I', hinv (L ++ [r]) (mkSys st (y_pc y)) S I' /\
      orec I' (f_app st) = orec I (f_app (y_fs y)) ++ [r] /\ f_hold st = f_hold (y_fs y) /\
      f_sorted st = f_sorted (y_fs y) /\ f_hk st = f_hk (y_fs y) /\ f_app st <> None /\
      (forall i, f_app (y_fs y) = Some i -> f_app st = Some i) /\
      (forall i, incl (nth i I []) (nth i I' [])).
Proof.
  intros H Hid (Hk & Hfl & Hsi & Hof & Hco).
  destruct (idx_record_ok key flags silo offset cont Hk Hfl Hsi Hof Hco) as (r & E & Hr & Hro & He).
  unfold IDX_Insert. replace (16 <=? id_size) with true by (symmetry; apply N.leb_le; auto).
  cbn [guard bind]. rewrite E. cbn [bind].
  destruct y as [st pcs]. cbn [y_fs y_pc].
  destruct (hinv_open L st pcs S I H) as (I1 & H1 & N1 & Ea & Es & Eh & Ehold & Eo).
  assert (Keep : forall i, f_app st = Some i -> f_app (fst (open_append st)) = Some i).
  { intros i Hi. unfold open_append. rewrite Hi. auto. }
  destruct (open_append st) as [st1 a] eqn:Eop. cbn [fst snd] in *.
  destruct (hinv_write L st1 pcs S I1 a r H1 Ea Hr Hro) as (I2 & H2 & N2 & E2).
  exists r, (write_append st1 a r). split; [auto|]. split; [auto|]. exists I2. split; auto.
  unfold write_append. cbn [f_app f_hold f_sorted f_hk]. rewrite Ea. cbn [orec].
  rewrite E2, Eo. repeat split; auto; try discriminate.
  - intros i Hi. rewrite <- (Keep i Hi). auto.
  - intros i. rewrite <- N1. auto.
Qed.

(** Housekeeper steps *)

Lemma read_buf (I : list (list bytes)) i sort_size k : (forall i, Forall is_rec (nth i I [])) -> sort_size mod 32 = 0 ->
  firstn (N.to_nat sort_size) (skipn (32 * k) (concat (nth i I []))) =
  concat (firstn (N.to_nat (sort_size / 32)) (skipn k (nth i I []))).
Proof.
  intros HI Hs.
  assert (G : forall l j, Forall is_rec l -> skipn (32 * j) (concat l) = concat (skipn j l)).
  { clear. induction l as [|x l IH]; intros j Hl.
    - simpl. rewrite !skipn_nil. auto.
    - apply Forall_cons_iff in Hl. destruct Hl as [Hx Hl]. destruct j; auto.
      replace (32 * S j)%nat with (length x + 32 * j)%nat by (destruct Hx; lia).
      rewrite <- skipn_skipn'. simpl concat. rewrite skipn_app, skipn_all, Nat.sub_diag. exact (IH j Hl). }
  assert (G2 : forall l j, Forall is_rec l -> firstn (32 * j) (concat l) = concat (firstn j l)).
  { clear. induction l as [|x l IH]; intros j Hl.
    - simpl. rewrite !firstn_nil. auto.
    - apply Forall_cons_iff in Hl. destruct Hl as [Hx Hl]. destruct j; auto.
      replace (32 * S j)%nat with (length x + 32 * j)%nat by (destruct Hx; lia).
      simpl concat. rewrite firstn_app_2. rewrite IH by auto. auto. }
  rewrite G by auto. replace (N.to_nat sort_size) with (32 * N.to_nat (sort_size / 32))%nat by lia.
  apply G2. apply Forall_skipn; auto.
Qed.

Lemma concat_recs_length l : Forall is_rec l -> length (concat l) = (32 * length l)%nat.
Proof.
  induction 1 as [|x l Hx Hl IH]; simpl; auto. rewrite app_length, IH. destruct Hx. lia.
Qed.

Lemma firstn_firstn_len {A} m (X : list A) : firstn (length (firstn m X)) X = firstn m X.
Proof.
  rewrite firstn_length. destruct (Nat.min_spec m (length X)) as [[? ->]|[? ->]]; auto.
  rewrite firstn_all; symmetry; apply firstn_all2; auto.
Qed.

Definition small_hist (L : list bytes) : Prop := len L < 2 ^ 38.

Lemma hk_step_inv sort_size L st pcs k pc S I :
  hinv L (mkSys st pcs) S I -> small_hist L -> 32 <= sort_size -> sort_size mod 32 = 0 ->
  nth_error pcs k = Some pc ->
  exists S', hinv L (mkSys (fst (hk_step sort_size st pc)) (set_nth k (snd (hk_step sort_size st pc)) pcs)) S' I /\ grow S S'.
Proof.
  intros HI Hsm Hss Hmod Hk.
  destruct (hinv_recs _ _ _ _ HI) as [RS RI].
  assert (Hlt : (k < length pcs)%nat) by (apply nth_error_Some; congruence).
  destruct HI as [Hs Hi Hrec Hoff Hcs Hci Ha Hh Hv Hm Hho Hp]. cbn [y_fs y_pc] in *.
  assert (Hpk := Hp k pc Hk).
  (* generic: the stepping process is the only critical one *)
  assert (Oth : crit pc = true -> forall j p, nth_error pcs j = Some p -> j <> k -> crit p = false).
  { intros Hc j p Hj Hne. destruct (crit p) eqn:E; auto. exfalso. apply Hne. eapply Hm; eauto. }
  assert (NC : forall j p, nth_error pcs j = Some p -> crit p = false -> forall S' st', pc_ok L S' I st' p).
  { intros j p Hj Hc S' st'. specialize (Hp j p Hj). destruct p; try discriminate; simpl in *; auto. }
  assert (G : forall st' pc' S', crit pc = true ->
     sorted_ok (f_sorted st') S' -> f_ino st' = f_ino st -> (forall r, (cnt r S' <= cnt r L)%nat) ->
     grow S S' ->
     (forall i, f_app st' = Some i -> (i < length I)%nat) ->
     (forall i, f_hk st' = Some i -> (i < length I)%nat) ->
     (forall r, In r L -> In r S' \/ In r (orec I (f_app st')) \/ In r (orec I (f_hk st'))) ->
     (crit pc' = true -> f_hold st' = true) ->
     pc_ok L S' I st' pc' ->
     exists S'0, hinv L (mkSys st' (set_nth k pc' pcs)) S'0 I /\ grow S S'0).
  { intros st' pc' S' Hc G1 G2 G3 G3' G4 G5 G6 G7 G8. exists S'. split; auto.
    constructor; cbn [y_fs y_pc]; auto; try congruence.
    - intros j l p q Hj Hl Cp Cq. rewrite nth_error_set_nth in Hj, Hl.
      destruct (Nat.eqb_spec j k), (Nat.eqb_spec l k); subst; auto; exfalso.
      + rewrite (Oth Hc l q Hl n) in Cq. discriminate.
      + rewrite (Oth Hc j p Hj n) in Cp. discriminate.
      + rewrite (Oth Hc j p Hj n) in Cp. discriminate.
    - intros j p Hj Cp. rewrite nth_error_set_nth in Hj. destruct (Nat.eqb_spec j k).
      + rewrite Hk in Hj. injection Hj as <-. auto.
      + rewrite (Oth Hc j p Hj n) in Cp. discriminate.
    - intros j p Hj. rewrite nth_error_set_nth in Hj. destruct (Nat.eqb_spec j k).
      + rewrite Hk in Hj. injection Hj as <-. auto.
      + eapply NC; eauto. }
  assert (Hhold : crit pc = true -> f_hold st = true) by (intros; eapply Hho; eauto).
  destruct pc; cbn [hk_step].
  - (* HHold *)
    destruct (f_hold st) eqn:Ehold; cbn [fst snd].
    + exists S. split; auto using grow_refl.
      constructor; cbn [y_fs y_pc]; auto.
      * intros j l p q Hj Hl Cp Cq. rewrite nth_error_set_nth in Hj, Hl. rewrite Hk in Hj, Hl.
        destruct (Nat.eqb_spec j k), (Nat.eqb_spec l k); subst; auto;
          try (injection Hj as <-; discriminate); try (injection Hl as <-; discriminate).
        eapply Hm; eauto.
      * intros j p Hj. rewrite nth_error_set_nth, Hk in Hj. destruct (Nat.eqb_spec j k).
        { injection Hj as <-. simpl. auto. } eauto.
    + exists S. split; auto using grow_refl.
      assert (Nn : forall j p, nth_error pcs j = Some p -> crit p = false).
      { intros j p Hj. destruct (crit p) eqn:E; auto. assert (Hx := Hho j p Hj E). congruence. }
      constructor; cbn [y_fs y_pc f_sorted f_app f_hk f_ino f_hold]; auto.
      * intros j l p q Hj Hl Cp Cq. rewrite nth_error_set_nth in Hj, Hl.
        destruct (Nat.eqb_spec j k), (Nat.eqb_spec l k); subst; auto; exfalso.
        -- rewrite (Nn l q Hl) in Cq. discriminate.
        -- rewrite (Nn j p Hj) in Cp. discriminate.
        -- rewrite (Nn j p Hj) in Cp. discriminate.
      * intros j p Hj. rewrite nth_error_set_nth, Hk in Hj. destruct (Nat.eqb_spec j k).
        { injection Hj as <-. simpl. auto. } eapply NC; eauto.
  - (* HLink *)
    destruct (f_app st) as [a|] eqn:Ea; [destruct (f_hk st) as [h|] eqn:Eh|]; cbn [fst snd];
      (apply (G _ _ S); cbn [f_sorted f_app f_hk f_ino f_hold pc_ok]; rewrite ?Ea, ?Eh in *;
       auto using grow_refl; try congruence; try (simpl; eauto; fail)).
    intros r Hr. destruct (Hv r Hr) as [?|[?|[]]]; auto.
  - (* HUnlinkApp *)
    destruct Hpk as (a & Ea & Eh). rewrite Ea. cbn [fst snd].
    apply (G _ _ S); cbn [f_sorted f_app f_hk f_ino f_hold pc_ok]; auto using grow_refl; try congruence; eauto.
    intros r Hr. destruct (Hv r Hr) as [?|[Hx|Hx]]; auto.
    rewrite Ea in Hx. rewrite Eh. auto.
  - (* HOpen *)
    destruct Hpk as (h & Eh). rewrite Eh. cbn [fst snd].
    apply (G _ _ S); cbn [f_sorted f_app f_hk f_ino f_hold pc_ok]; auto using grow_refl; try congruence.
    split; auto. exists O. repeat split; auto; try lia. intros x [].
  - (* HRead *)
    destruct Hpk as (Eh & j & -> & Hj & Hinc).
    rewrite (ino_data_concat st I ino Hi).
    rewrite (read_buf I ino sort_size j) by auto.
    set (cs := firstn (N.to_nat (sort_size / 32)) (skipn j (nth ino I []))).
    assert (Rc : Forall is_rec cs).
    { unfold cs. rewrite Forall_forall. intros x Hx.
      specialize (RI ino). rewrite Forall_forall in RI. apply RI.
      rewrite <- (firstn_skipn j (nth ino I [])). apply in_or_app. right.
      rewrite <- (firstn_skipn (N.to_nat (sort_size / 32)) (skipn j _)). apply in_or_app. left. auto. }
    rewrite (concat_recs_length cs Rc).
    destruct (Nat.eqb_spec (32 * length cs) 0) as [E0|E0]; cbn [fst snd].
    + apply (G _ _ S); auto using grow_refl.
      simpl. exists ino. split; auto. left.
      assert (length cs = 0)%nat by lia.
      unfold cs in H. rewrite firstn_length, skipn_length in H.
      replace j with (length (nth ino I [])) in Hinc by lia. rewrite firstn_all in Hinc. auto.
    + replace (Nat.modulo (32 * length cs) 32) with 0%nat by (rewrite Nat.mul_comm, Nat.mod_mul; lia).
      simpl Nat.eqb. cbn [negb]. cbn [fst snd].
      rewrite chunks_concat by (try lia; apply recs_len; auto).
      apply (G _ _ S); auto using grow_refl.
      assert (Eq1 : firstn (j + length cs) (nth ino I []) = firstn j (nth ino I []) ++ cs).
      { rewrite <- (firstn_skipn j (nth ino I [])) at 1. rewrite firstn_app.
        rewrite firstn_firstn, Nat.min_r by lia. f_equal.
        rewrite firstn_length, Nat.min_l by lia. replace (j + length cs - j)%nat with (length cs) by lia.
        apply firstn_firstn_len. }
      assert (Ll : (j + length cs <= length (nth ino I []))%nat).
      { unfold cs. rewrite firstn_length, skipn_length. lia. }
      simpl. split; auto. exists (j + length cs)%nat. repeat split; auto; try lia.
      * destruct cs as [|c0 cs0]; [simpl in E0; lia|].
        intros Hn. assert (P := sort_recs_perm (c0 :: cs0)). rewrite Hn in P. apply Permutation_nil in P. discriminate.
      * apply sort_recs_sorted.
      * intros r. rewrite (cnt_perm _ _ r (sort_recs_perm cs)).
        unfold cs. etransitivity; [apply cnt_firstn|apply cnt_skipn].
      * rewrite Eq1. apply incl_app. { apply incl_appl; auto. }
        intros x Hx. apply in_or_app. right. eapply Permutation_in; [apply Permutation_sym, sort_recs_perm|]; auto.
      * intros Hfull. left. unfold len in Hfull. rewrite (concat_recs_length cs Rc) in Hfull.
        apply N.eqb_neq in Hfull.
        unfold cs in *. rewrite firstn_length, skipn_length in *. lia.
  - (* HMerge *)
    destruct Hpk as (Eh & j & -> & Hj & Hne & Hso & Hcc & Hinc & Hfull).
    assert (Rc : Forall is_rec chunk).
    { rewrite Forall_forall. intros x Hx. specialize (RI ino). rewrite Forall_forall in RI. apply RI.
      eapply cnt_incl; eauto. }
    assert (Lc : (length chunk <= length L)%nat).
    { apply cnt_le_length. intros r. etransitivity; [apply Hcc|apply Hci]. }
    assert (LS : (length S <= length L)%nat) by (apply cnt_le_length; auto).
    destruct (idx_merge_ok (f_sorted st) S chunk Hs Hne Rc Hso) as (file & R' & bb & nr & E & W & P & _ & _).
    { unfold small_hist, len in *. change (2 ^ 38) with 274877906944 in Hsm.
      change (2 ^ 27) with 134217728. change (2 ^ 40) with 1099511627776. lia. }
    rewrite E. cbn [fst snd].
    apply (G _ _ S); auto using grow_refl.
    simpl. split; auto. exists j, R', bb, nr.
    assert (InR : forall x, In x R' <-> In x S \/ In x chunk).
    { intros x. rewrite P, in_app_iff, filter_In, notin_true.
      destruct (in_dec bytes_dec x S); intuition. }
    repeat split; auto; try apply W.
    + intros r Hr. rewrite (cnt_perm _ _ r P), cnt_app, cnt_filter_notin.
      destruct (in_dec bytes_dec r S); [lia|contradiction].
    + intros r. rewrite (cnt_perm _ _ r P), cnt_app, cnt_filter_notin.
      destruct (in_dec bytes_dec r S) as [Hin|Hnin].
      * specialize (Hcs r). lia.
      * assert (cnt r S = 0)%nat. { rewrite cnt_in in Hnin. lia. }
        specialize (Hcc r). specialize (Hci ino r). lia.
    + intros x Hx. apply InR. apply Hinc in Hx. apply in_app_or in Hx. auto.
  - (* HRename *)
    destruct Hpk as (Eh & j & S' & bb & nr & -> & Hj & W & HSS & Hc' & Hinc & Hfull).
    cbn [fst snd].
    apply (G _ _ S'); cbn [f_sorted f_app f_hk f_ino f_hold]; auto.
    + right. exists new, bb, nr. auto.
    + intros r Hr. destruct (Hv r Hr) as [?|[?|?]]; auto. left. apply (grow_incl _ _ HSS). auto.
    + destruct full; simpl.
      * split; auto. exists j. auto.
      * exists ino. split; auto. destruct (Hfull eq_refl) as [->|?]; auto.
        rewrite firstn_all in Hinc. auto.
  - (* HUnlinkHk *)
    destruct Hpk as (h & Eh & Hx). rewrite Eh. cbn [fst snd].
    apply (G _ _ S); cbn [f_sorted f_app f_hk f_ino f_hold]; auto using grow_refl; try congruence.
    + intros r Hr. destruct (Hv r Hr) as [?|[?|Hy]]; auto.
      rewrite Eh in Hy. simpl in Hy. destruct Hx as [Hx|Hx]; auto.
      rewrite Hx. auto.
    + destruct again; simpl; auto.
  - (* HUnhold *)
    cbn [fst snd]. apply (G _ _ S); cbn [f_sorted f_app f_hk f_ino f_hold]; auto using grow_refl; simpl; auto; discriminate.
  - (* HDone *)
    cbn [fst snd]. exists S. split; auto using grow_refl.
    replace (set_nth k HDone pcs) with pcs. { constructor; auto. }
    clear - Hk. revert k Hk. induction pcs; intros [|k] Hk; simpl in *; try discriminate.
    + congruence.
    + rewrite <- IHpcs; auto.
  - simpl in Hpk. contradiction.
Qed.

Lemma hinv_start L y S I : hinv L y S I -> hinv L (mkSys (y_fs y) (y_pc y ++ [HHold])) S I.
Proof.
  intros [Hs Hi Hrec Hoff Hcs Hci Ha Hh Hv Hm Hho Hp].
  assert (N : forall j p, nth_error (y_pc y ++ [HHold]) j = Some p -> p = HHold \/ nth_error (y_pc y) j = Some p).
  { intros j p Hj. destruct (Nat.lt_ge_cases j (length (y_pc y))) as [Hl|Hl].
    - rewrite nth_error_app1 in Hj by auto. auto.
    - rewrite nth_error_app2 in Hj by auto. destruct (j - length (y_pc y))%nat as [|m]; simpl in Hj.
      + left; congruence.
      + destruct m; discriminate. }
  constructor; cbn [y_fs y_pc]; auto.
  - intros j l p q Hj Hl Cp Cq. destruct (N j p Hj) as [->|]; [discriminate|].
    destruct (N l q Hl) as [->|]; [discriminate|]. eauto.
  - intros j p Hj Cp. destruct (N j p Hj) as [->|]; [discriminate|]. eauto.
  - intros j p Hj. destruct (N j p Hj) as [->|]; [simpl; auto|]. eauto.
Qed.

Lemma hinv_crash L y S I : hinv L y S I -> hinv L (mkSys (unhold (y_fs y)) []) S I.
Proof.
  intros [Hs Hi Hrec Hoff Hcs Hci Ha Hh Hv Hm Hho Hp].
  constructor; cbn [y_fs y_pc unhold f_sorted f_app f_hk f_ino f_hold]; auto; intros j; destruct j; discriminate.
Qed.
