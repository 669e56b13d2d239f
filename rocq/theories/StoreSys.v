(* From single commands to any number of them at the same time. *)
From Coq Require Import Permutation.
From Coq Require Import ZifyBool ZifyNat ZifyN.
From Verif Require Import Base BaseLemmas ListLemmas IndexModel IndexSpec GzipModel ProgModel StoreModel
  StoreSpec StoreSysModel StoreWp.
Open Scope N_scope.

Definition inv (C : conf) (L : zlib) (s : fs) : Prop := archive_ok C L s /\ date_ok (f_clock s).

Section Generic.
Variable C : conf.
Variable L : zlib.
Variable Q : job -> option bytes -> list N -> fs -> Prop.
Hypothesis Qstable : forall j a own s s', Q j a own s -> rely own s s' -> Q j a own s'.
Hypothesis Qown : forall j a own s, Q j a own s -> own = [].
Hypothesis Qjob : forall j s, job_ok j -> inv C L s -> wp (inv C L) (fun _ => True) (Q j) [] s (job_prog C L j).

Notation wpj := (wp (inv C L) (fun _ => True)).

Lemma wp_stable j own s s' p : wpj (Q j) own s p -> rely own s s' -> wpj (Q j) own s' p.
Proof.
  intros W R. destruct p as [a|d|c k]; cbn [wp] in *; eauto.
  intros s1 R1 I. apply W; auto. eapply rely_trans; eauto.
Qed.

Definition procok (s : fs) (own : list N) (x : job * prog (option bytes)) : Prop :=
  wpj (Q (fst x)) own s (snd x).

Definition winvo (owns : list (list N)) (x : world) : Prop :=
  Forall2 (procok (wo_fs x)) owns (wo_procs x) /\ NoDup (concat owns) /\
    (forall n, In n (concat owns) -> f_hold (wo_fs x) n <> None) /\
    (forall n, f_hold (wo_fs x) n <> None -> In n (concat owns) \/ exists j d, In (j, Die d) (wo_procs x)).
Definition winv (x : world) : Prop := inv C L (wo_fs x) /\ exists owns, winvo owns x.

Lemma settled_perm so n es es' : Permutation es es' -> settled C L so n es -> settled C L so n es'.
Proof.
  intros P. unfold settled. destruct so as [[b w]|].
  - intros (w0 & l & e & H1 & H2 & H3 & H4 & H5 & H6). exists w0, l, e. repeat split; auto.
    eapply perm_trans; [apply Permutation_sym; exact P|auto].
  - intros ->. apply Permutation_nil. auto.
Qed.

Lemma unsettled_perm so h n es es' : Permutation es es' -> unsettled C L so h n es -> unsettled C L so h n es'.
Proof.
  intros P (e1 & e2 & H1 & H2 & H3). exists e1, e2. repeat split; auto.
  eapply perm_trans; [apply Permutation_sym; exact P|auto].
Qed.

Lemma inv_clock s d : inv C L s -> date_ok d -> inv C L (set_clock s d).
Proof. intros ((A1 & A2 & A3) & _) H. split; auto. split; [exact A1|]. split; [exact A2|exact A3]. Qed.

Lemma inv_sort s l : inv C L s -> Permutation l (f_idx s) -> inv C L (set_idx s l).
Proof.
  intros ((A1 & A2 & A3) & B) H. split; auto. split; [|split]; auto.
  intros n. specialize (A1 n). assert (P : Permutation (entries (set_idx s l) n) (entries s n)).
  { apply entries_perm. auto. }
  cbn [set_idx f_hold f_silo]. apply Permutation_sym in P.
  destruct (f_hold s n); [eapply unsettled_perm|eapply settled_perm]; eauto.
Qed.

Lemma inv_protect s n b w : inv C L s -> f_hold s n = None -> f_silo s n = Some (b, w) ->
  inv C L (set_silo s n (Some (b, false))).
Proof.
  intros ((A1 & A2 & A3) & B) H E. split; auto. split; [|split].
  - intros m. specialize (A1 m). cbn [set_silo f_hold f_silo]. change (entries (set_silo s n (Some (b, false))) m) with (entries s m).
    destruct (N.eq_dec m n) as [->|X].
    + rewrite H, upd_same. rewrite H, E in A1. exact A1.
    + rewrite upd_other by auto. auto.
  - intros m b' w'. cbn [set_silo f_silo]. unfold upd. destruct (m =? n) eqn:X; [|apply A2].
    intros Y. injection Y as <- <-. apply N.eqb_eq in X. subst. eauto.
  - intros c Hc. destruct (A3 c Hc) as (B1 & B2 & B3 & B4). split; [auto|split; [auto|split]].
    + intros m Hm. cbn [set_silo f_silo]. unfold upd. destruct (m =? n); [discriminate|auto].
    + intros m Hm. cbn [set_silo f_silo]. unfold upd. destruct (B4 m Hm) as (b' & w' & F & G).
      destruct (m =? n) eqn:X; eauto. apply N.eqb_eq in X. subst. rewrite E in F. injection F as -> ->. eauto.
Qed.

Lemma rely_clock own s d : rely own s (set_clock s d).
Proof. pose proof (rely_refl own s) as (A & B & E). split; [|split]; auto. Qed.

Lemma rely_sort own s l : Permutation l (f_idx s) -> rely own s (set_idx s l).
Proof.
  intros H. split; [|split].
  - intros n _. repeat split; auto. apply entries_perm. auto.
  - intros n b w E. exists [], w. rewrite app_nil_r. auto.
  - exists []. rewrite app_nil_r. auto.
Qed.

Lemma rely_protect own s n b w : f_hold s n = None -> (forall m, In m own -> f_hold s m <> None) ->
  f_silo s n = Some (b, w) -> rely own s (set_silo s n (Some (b, false))).
Proof.
  intros H Ho E. split; [|split].
  - intros m Hm. cbn [set_silo f_silo f_hold]. rewrite upd_other; [auto|]. intros ->. apply Ho in Hm. auto.
  - intros m b' w' F. cbn [set_silo f_silo]. exists []. rewrite app_nil_r. unfold upd. destruct (m =? n) eqn:X.
    + apply N.eqb_eq in X. subst. rewrite E in F. injection F as <- <-. exists false. auto.
    + exists w'. auto.
  - exists []. rewrite app_nil_r. auto.
Qed.

Lemma procs_rely s s' owns ps : Forall2 (procok s) owns ps -> (forall o, In o owns -> rely o s s') ->
  Forall2 (procok s') owns ps.
Proof.
  intros H. induction H as [|o p os ps H0 H IH]; intros HR; constructor.
  - unfold procok in *. eapply wp_stable; eauto. apply HR. left; auto.
  - apply IH. intros. apply HR. right; auto.
Qed.

Lemma in_concat_app (n : N) (l1 l2 : list (list N)) o : In n (concat (l1 ++ o :: l2)) <-> In n o \/ In n (concat l1) \/ In n (concat l2).
Proof. rewrite concat_app, in_app_iff. cbn [concat]. rewrite in_app_iff. tauto. Qed.

Lemma nodup_mid (l1 l2 : list (list N)) o : NoDup (concat (l1 ++ o :: l2)) <->
  NoDup o /\ NoDup (concat l1 ++ concat l2) /\ forall n, In n o -> ~ In n (concat l1 ++ concat l2).
Proof.
  rewrite concat_app. cbn [concat].
  assert (P : Permutation (concat l1 ++ o ++ concat l2) (o ++ concat l1 ++ concat l2)).
  { rewrite !app_assoc. apply Permutation_app_tail. apply Permutation_app_comm. }
  split.
  - intros H. apply (Permutation_NoDup P) in H. clear P. revert H. generalize (concat l1 ++ concat l2). intros r.
    induction o as [|x o IH]; cbn [app]; intros H; [split; [constructor|split; auto]|].
    apply NoDup_cons_iff in H. destruct H as [H1 H2]. destruct (IH H2) as (I1 & I2 & I3). split; [|split]; auto.
    + constructor; auto. intros X. apply H1. apply in_or_app; auto.
    + intros n [->|Hn]; auto. intros X. apply H1. apply in_or_app; auto.
  - intros (H1 & H2 & H3). apply (Permutation_NoDup (Permutation_sym P)). clear P. revert H2 H3. generalize (concat l1 ++ concat l2). intros r H2 H3.
    induction H1 as [|x o H0 H1 IH]; auto. cbn [app]. constructor.
    + rewrite in_app_iff. intros [X|X]; auto. apply (H3 x); auto. left; auto.
    + apply IH; auto. intros n Hn. apply H3. right; auto.
Qed.

Lemma own_hold c s a own n : snd (exec c s) = a -> legal own s c -> (forall m, In m own -> f_hold s m <> None) ->
  In n (own_after c a own) -> f_hold (fst (exec c s)) n <> None.
Proof.
  intros <- Hl Ho. destruct c; cbn [own_after exec legal fst snd] in *; cbn [set_hold set_silo f_hold]; auto.
  - destruct (f_hold s n0) eqn:F; cbn [fst snd]; auto. intros [->|H]; cbn [set_hold f_hold].
    + rewrite upd_same. discriminate.
    + unfold upd. destruct (n =? n0); [discriminate|auto].
  - intros H. unfold upd. destruct (n =? n0); [discriminate|auto].
  - intros H. unfold upd. destruct (n =? n0); [discriminate|auto].
  - destruct (f_silo s n0); cbn [fst set_silo f_hold]; auto.
  - intros H. apply in_remove in H. destruct H. rewrite upd_other; auto.
  - destruct (f_silo s n0) as [[b w]|]; cbn [fst set_silo f_hold]; auto.
Qed.

Lemma hold_own c s own n : legal own s c -> f_hold (fst (exec c s)) n <> None ->
  In n (own_after c (snd (exec c s)) own) \/ (f_hold s n <> None /\ ~ In n own) \/ (exists m, c <> CUnlink m /\ f_hold s n <> None) .
Proof.
  intros Hl. destruct c; cbn [own_after exec legal fst snd] in *; cbn [set_hold set_silo f_hold]; auto;
    try (intros H; right; right; eexists 0; split; [discriminate|auto]; fail).
  - destruct (f_hold s n0) eqn:F; cbn [fst snd]; [intros H; right; right; exists 0; split; auto; discriminate|].
    cbn [set_hold f_hold]. unfold upd. destruct (n =? n0) eqn:X.
    + apply N.eqb_eq in X. subst. intros _. left. left. auto.
    + intros H. right. right. exists 0. split; auto. discriminate.
  - unfold upd. destruct (n =? n0) eqn:X; [|intros H; right; right; exists 0; split; auto; discriminate].
    apply N.eqb_eq in X. subst. auto.
  - unfold upd. destruct (n =? n0) eqn:X; [|intros H; right; right; exists 0; split; auto; discriminate].
    apply N.eqb_eq in X. subst. auto.
  - destruct (f_silo s n0); intros H; right; right; exists 0; split; auto; discriminate.
  - unfold upd. destruct (n =? n0) eqn:X; [congruence|]. apply N.eqb_neq in X. intros H.
    destruct (in_dec N.eq_dec n own) as [Y|Y]; [left; apply in_in_remove; auto|auto].
  - destruct (f_silo s n0) as [[b w]|]; intros H; right; right; exists 0; split; auto; discriminate.
Qed.

Lemma hold_own' c s own n : legal own s c -> f_hold (fst (exec c s)) n <> None ->
  In n (own_after c (snd (exec c s)) own) \/ (f_hold s n <> None /\ ~ In n own).
Proof.
  intros Hl H. destruct (hold_own c s own n Hl H) as [|[|(m & X & Y)]]; auto.
  destruct (in_dec N.eq_dec n own) as [Z|Z]; auto. left.
  destruct (own_after_cases c (snd (exec c s)) own) as [(k & _ & E)|[(k & E & _)|E]].
  - rewrite E. right; auto.
  - subst c. destruct (N.eq_dec n k) as [->|W]; [|cbn [own_after]; apply in_in_remove; auto].
    cbn [exec fst set_hold f_hold] in H. rewrite upd_same in H. congruence.
  - rewrite E. auto.
Qed.

Lemma Forall2_mid {X Y} (P : X -> Y -> Prop) l y r1 r2 : Forall2 P l (r1 ++ y :: r2) ->
  exists l1 x l2, l = l1 ++ x :: l2 /\ Forall2 P l1 r1 /\ P x y /\ Forall2 P l2 r2.
Proof.
  intros H. apply Forall2_app_inv_r in H. destruct H as (l1 & l' & H1 & H2 & ->).
  inversion H2; subst. eexists l1, _, _. repeat split; eauto.
Qed.

Lemma others_disjoint (l1 l2 : list (list N)) own o : NoDup (concat (l1 ++ own :: l2)) -> In o l1 \/ In o l2 ->
  forall n, In n o -> ~ In n own.
Proof.
  intros H Ho n Hn X. apply nodup_mid in H. destruct H as (_ & _ & H). apply (H n X). apply in_or_app.
  destruct Ho as [Ho|Ho]; [left|right]; apply in_concat; eauto.
Qed.

(* how the numbers owned change *)
Definition killed (y : world) (i : nat) : Prop := exists j, nth_error (wo_procs y) i = Some (j, Die DKill).
Definition owns_step (s : fs) (owns : list (list N)) (l : option event) (y : world) (owns' : list (list N)) : Prop :=
  match l with
  | None => forall i, nth i owns' [] = nth i owns [] \/ (nth i owns' [] = [] /\ killed y i)
  | Some e => exists l1 own l2, owns = l1 ++ own :: l2 /\ length l1 = ev_proc e /\ legal own s (ev_call e) /\
      exists own', owns' = l1 ++ own' :: l2 /\
        (own' = own_after (ev_call e) (snd (exec (ev_call e) s)) own /\ ev_ok e = created (ev_call e) (snd (exec (ev_call e) s)) \/
         own' = [] /\ killed y (ev_proc e) /\ forall n, ev_call e <> CCreat n /\ ev_call e <> CUnlink n)
  end.

Lemma winv_lstep x l y : forall owns, inv C L (wo_fs x) -> winvo owns x -> lstep C L x l y ->
  inv C L (wo_fs y) /\ exists owns', winvo owns' y /\ owns_step (wo_fs x) owns l y owns'.
Proof.
  intros owns I (HF & ND & H1 & H2) S. unfold winvo. destruct S; cbn [wo_fs wo_procs] in *.
  - (* call *)
    destruct (Forall2_mid _ _ _ _ _ HF) as (l1 & own & l2 & -> & F1 & P & F2).
    unfold procok in P. cbn [fst snd wp] in P. destruct (P s (rely_refl _ _) I) as (A1 & A2 & A3 & A4).
    split; auto. set (own' := own_after c (snd (exec c s)) own) in *.
    assert (HR : forall o, In o l1 \/ In o l2 -> rely o s (fst (exec c s))).
    { intros o Ho. apply (exec_rely own); auto. intros n Hn. split.
      - apply H1. apply in_concat_app. right. destruct Ho; [left|right]; apply in_concat; eauto.
      - eapply others_disjoint; eauto. }
    assert (HO : forall m, In m own -> f_hold s m <> None) by (intros; apply H1, in_concat_app; auto).
    exists (l1 ++ own' :: l2). assert (LL : length l1 = length ps1) by (clear - F1; induction F1; cbn [length]; auto).
    split; [|exists l1, own, l2; split; [auto|]; split; [auto|]; split; [auto|]; exists own'; split; [auto|]; left; split; reflexivity].
    split; [|split; [|split]].
    + apply Forall2_app; [|constructor; auto].
      * eapply procs_rely; eauto.
      * eapply procs_rely; eauto.
    + apply nodup_mid. apply nodup_mid in ND. destruct ND as (N1 & N2 & N3).
      destruct (own_after_cases c (snd (exec c s)) own) as [(n & -> & E)|[(n & _ & E)|E]]; fold own' in E; rewrite E.
      * subst own'. cbn [exec own_after] in *. destruct (f_hold s n) eqn:FH; cbn [snd] in E.
        -- exfalso. apply (f_equal (@length N)) in E. simpl in E. lia.
        -- assert (NI : forall X : Prop, (In n (concat (l1 ++ own :: l2)) -> X)).
           { intros X Y. apply H1 in Y. congruence. }
           rewrite <- (in_concat_app n l1 l2 own) in NI || idtac.
           split; [|split]; auto.
           ++ constructor; auto. intros Y. apply (NI False). apply in_concat_app. auto.
           ++ intros m [<-|Hm]; auto. intros Y. apply (NI False). apply in_concat_app. apply in_app_iff in Y. tauto.
      * split; [|split]; auto.
        -- clear - N1. induction N1 as [|x o Hx N1 IH]; cbn [remove]; [constructor|].
           destruct (N.eq_dec n x); auto. constructor; auto. intros X. apply in_remove in X. tauto.
        -- intros m Hm. apply N3. apply in_remove in Hm. tauto.
      * auto.
    + intros n Hn. apply in_concat_app in Hn. destruct Hn as [Hn|Hn].
      * eapply own_hold; eauto.
      * assert (exists o, (In o l1 \/ In o l2) /\ In n o) as (o & Ho & Hno).
        { destruct Hn as [Hn|Hn]; apply in_concat in Hn; destruct Hn as (o & ? & ?); eauto. }
        destruct (HR o Ho) as (R1 & _). destruct (R1 n Hno) as (_ & -> & _). apply H1. apply in_concat_app. auto.
    + intros n Hn. destruct (hold_own' _ _ _ _ A1 Hn) as [X|[X Y]].
      * left. apply in_concat_app. auto.
      * destruct (H2 n X) as [Z|(j' & d & Z)].
        -- left. apply in_concat_app. apply in_concat_app in Z. tauto.
        -- right. exists j', d. apply in_app_iff in Z. apply in_app_iff. destruct Z as [Z|[Z|Z]]; auto; [discriminate|]. right. right. auto.
  - (* kill *)
    destruct (Forall2_mid _ _ _ _ _ HF) as (l1 & own & l2 & -> & F1 & P & F2). split; auto.
    exists (l1 ++ [] :: l2). split.
    2: { assert (LL : length l1 = length ps1) by (clear - F1; induction F1; cbn [length]; auto).
         intros i. destruct (Nat.lt_trichotomy i (length l1)) as [X|[X|X]].
         - left. rewrite !app_nth1 by auto. auto.
         - right. subst i. rewrite nth_middle. split; [auto|]. exists j. cbn [wo_procs]. rewrite LL, nth_error_app2, Nat.sub_diag by auto. auto.
         - left. rewrite !app_nth2 by lia. destruct (i - length l1)%nat eqn:Y; [lia|auto]. }
    split; [|split; [|split]].
    + apply Forall2_app; auto. constructor; auto. exact Logic.I.
    + apply nodup_mid. apply nodup_mid in ND. destruct ND as (N1 & N2 & N3). split; [constructor|split; auto].
    + intros n Hn. apply H1. apply in_concat_app. apply in_concat_app in Hn. destruct Hn as [[]|]; auto.
    + intros n _. right. exists j, DKill. apply in_or_app. right. left. auto.
  - (* torn *)
    destruct (Forall2_mid _ _ _ _ _ HF) as (l1 & own & l2 & -> & F1 & P & F2).
    unfold procok in P. cbn [fst snd wp] in P. destruct (P s (rely_refl _ _) I) as (A1 & A2 & A3 & A4). split; auto.
    assert (HR : forall o, In o l1 \/ In o l2 -> rely o s s').
    { intros o Ho. apply (torn_rely own _ _ _ c); auto. intros n Hn. split.
      - apply H1. apply in_concat_app. right. destruct Ho; [left|right]; apply in_concat; eauto.
      - eapply others_disjoint; eauto. }
    exists (l1 ++ [] :: l2). assert (LL : length l1 = length ps1) by (clear - F1; induction F1; cbn [length]; auto).
    split; [|exists l1, own, l2; split; [auto|]; split; [auto|]; split; [auto|]; exists []; split; [auto|]; right; split; [auto|];
             split; [exists j; cbn [wo_procs ev_proc]; rewrite nth_error_app2, Nat.sub_diag by auto; auto|];
             cbn [ev_call]; destruct H; split; discriminate].
    split; [|split; [|split]].
    + apply Forall2_app; [|constructor].
      * eapply procs_rely; eauto.
      * exact Logic.I.
      * eapply procs_rely; eauto.
    + apply nodup_mid. apply nodup_mid in ND. destruct ND as (N1 & N2 & N3). split; [constructor|split; auto].
    + intros n Hn. apply in_concat_app in Hn. destruct Hn as [[]|Hn].
      assert (exists o, (In o l1 \/ In o l2) /\ In n o) as (o & Ho & Hno).
      { destruct Hn as [Hn|Hn]; apply in_concat in Hn; destruct Hn as (o & ? & ?); eauto. }
      destruct (HR o Ho) as (R1 & _). destruct (R1 n Hno) as (_ & -> & _). apply H1. apply in_concat_app. auto.
    + intros n _. right. exists j, DKill. apply in_or_app. right. left. auto.
  - (* start *)
    split; auto. exists (owns ++ [[]]). split.
    2: { intros i. left. destruct (Nat.lt_ge_cases i (length owns)) as [X|X]; [rewrite app_nth1 by auto; auto|].
         rewrite app_nth2, (nth_overflow owns) by auto. destruct (i - length owns)%nat as [|[|]]; auto. }
    split; [|split; [|split]].
    + apply Forall2_app; auto. constructor; [|constructor]. apply Qjob; auto.
    + rewrite concat_app. cbn [concat]. rewrite !app_nil_r. auto.
    + intros n. rewrite concat_app. cbn [concat]. rewrite !app_nil_r. auto.
    + intros n Hn. rewrite concat_app. cbn [concat]. rewrite !app_nil_r. destruct (H2 n Hn) as [|(j' & d & X)]; auto.
      right. exists j', d. apply in_or_app. auto.
  - split; [apply inv_clock; auto|]. exists owns. split; [|intros ?; auto]. split; [|split; [|split]]; auto.
    eapply procs_rely; eauto. intros. apply rely_clock.
  - split; [apply inv_sort; auto|]. exists owns. split; [|intros ?; auto]. split; [|split; [|split]]; auto.
    eapply procs_rely; eauto. intros. apply rely_sort; auto.
  - split; [eapply inv_protect; eauto|]. exists owns. split; [|intros ?; auto]. split; [|split; [|split]]; auto.
    eapply procs_rely; eauto. intros o Ho. eapply rely_protect; eauto. intros m Hm. apply H1. apply in_concat. eauto.
Qed.

Lemma winv_step x y : winv x -> step C L x y -> winv y.
Proof.
  intros (I & owns & W) (l & S). destruct (winv_lstep x l y owns I W S) as (I' & owns' & W' & _). split; [auto|]. exists owns'. exact W'.
Qed.

Lemma inv_empty s : empty_fs s -> inv C L s.
Proof.
  intros (A & B & E & F & G). split; auto. split; [|split].
  - intros n. rewrite A, B. unfold settled, entries. rewrite E. auto.
  - intros n b w. rewrite A. discriminate.
  - rewrite F. discriminate.
Qed.

Lemma winv_steps x y : steps C L x y -> winv x -> winv y.
Proof. intros H. induction H as [|a b c H1 IH H2]; auto. intros W. apply (winv_step b); auto. Qed.

Lemma winvo_empty s : empty_fs s -> winvo [] (mkWorld s []).
Proof.
  intros (_ & B & _). split; [constructor|]. split; [constructor|]. split; [intros n []|].
  intros n H. destruct (H (B n)).
Qed.

Lemma winv_reach x : reach C L x -> winv x.
Proof.
  intros (s & E & H). eapply winv_steps; eauto. split; [apply inv_empty; auto|]. exists []. apply winvo_empty; auto.
Qed.

(* every step only adds *)
Lemma step_grows x y : winv x -> step C L x y -> rely [] (wo_fs x) (wo_fs y).
Proof.
  intros (I & owns & HF & ND & H1 & H2) (l & S). destruct S; cbn [wo_fs wo_procs] in *; try apply rely_refl.
  - destruct (Forall2_mid _ _ _ _ _ HF) as (l1 & own & l2 & -> & F1 & P & F2).
    unfold procok in P. cbn [fst snd wp] in P. destruct (P s (rely_refl _ _) I) as (A1 & A2 & A3 & A4).
    apply (exec_rely own); auto; intros ? [].
  - destruct (Forall2_mid _ _ _ _ _ HF) as (l1 & own & l2 & -> & F1 & P & F2).
    unfold procok in P. cbn [fst snd wp] in P. destruct (P s (rely_refl _ _) I) as (A1 & A2 & A3 & A4).
    apply (torn_rely own _ _ _ c); auto; intros ? [].
  - apply rely_clock.
  - apply rely_sort; auto.
  - eapply rely_protect; eauto; intros ? [].
Qed.

Lemma steps_grow x y : winv x -> steps C L x y -> rely [] (wo_fs x) (wo_fs y).
Proof.
  intros W H. induction H; [apply rely_refl|]. eapply rely_trans; [apply IHsteps; auto|].
  apply step_grows; auto. eapply winv_steps; eauto.
Qed.
End Generic.
