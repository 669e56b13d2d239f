(* A logic for programs which share an archive with others.  A process owns the
   numbers whose hold file it has created.  Others leave those alone; everything
   else they may only add to. *)
From Coq Require Import Permutation.
From Coq Require Import ZifyBool ZifyNat ZifyN.
From Verif Require Import Base BaseLemmas ListLemmas IndexModel IndexSpec GzipModel ProgModel StoreModel
  StoreSpec StoreSysModel.
Open Scope N_scope.

Notation rm := (remove N.eq_dec).

Definition rely (own : list N) (s s' : fs) : Prop :=
  (forall n, In n own -> f_silo s' n = f_silo s n /\ f_hold s' n = f_hold s n /\
                         Permutation (entries s' n) (entries s n)) /\
  (forall n b w, f_silo s n = Some (b, w) ->
     exists t w', f_silo s' n = Some (b ++ t, w') /\ (w = false -> t = [] /\ w' = false)) /\
  (exists ex, Permutation (f_idx s') (f_idx s ++ ex)).

Definition legal (own : list N) (s : fs) (c : call) : Prop :=
  match c with
  | CWrite n _ | CPwrite n _ _ | CLink n | CUnlink n => In n own
  | CAppend n _ => In n own /\ exists b, f_silo s n = Some (b, true)
  | CIdxIns e => In (e_silo e) own
  | _ => True
  end.

Definition own_after (c : call) : ans c -> list N -> list N :=
  match c return ans c -> list N -> list N with
  | CCreat n => fun a own => if a : bool then n :: own else own
  | CUnlink n => fun _ own => rm n own
  | _ => fun _ own => own
  end.

(** * Facts about [rely] *)

Lemma entries_perm s s' n : Permutation (f_idx s') (f_idx s) -> Permutation (entries s' n) (entries s n).
Proof.
  intros H. unfold entries. induction H; cbn [filter]; auto.
  - destruct (e_silo x =? n); auto.
  - destruct (e_silo x =? n), (e_silo y =? n); auto. constructor.
  - eapply perm_trans; eauto.
Qed.

Lemma rely_refl own s : rely own s s.
Proof.
  split; [auto|split].
  - intros n b w H. exists [], w. rewrite app_nil_r. auto.
  - exists []. rewrite app_nil_r. auto.
Qed.

Lemma rely_trans own a b c : rely own a b -> rely own b c -> rely own a c.
Proof.
  intros (A1 & A2 & e1 & A3) (B1 & B2 & e2 & B3). split; [|split].
  - intros n H. destruct (A1 n H) as (X1 & X2 & X3), (B1 n H) as (Y1 & Y2 & Y3).
    repeat split; try congruence. eapply perm_trans; eauto.
  - intros n x w H. destruct (A2 _ _ _ H) as (t & w' & E & F). destruct (B2 _ _ _ E) as (t' & w'' & E' & F').
    exists (t ++ t'), w''. rewrite app_assoc. split; auto. intros W. destruct (F W) as [-> ->].
    destruct (F' eq_refl) as [-> ->]. auto.
  - exists (e1 ++ e2). rewrite app_assoc. eapply perm_trans; [exact B3|]. apply Permutation_app_tail. auto.
Qed.

Lemma rely_mono own own' s s' : (forall n, In n own' -> In n own) -> rely own s s' -> rely own' s s'.
Proof. intros H (A & B & E). split; [|split]; auto. Qed.

Lemma rely_nil own s s' : rely own s s' -> rely [] s s'.
Proof. apply rely_mono. intros n []. Qed.

Lemma upd_same {X} (f : N -> X) n x : upd f n x n = x.
Proof. unfold upd. rewrite N.eqb_refl. auto. Qed.
Lemma upd_other {X} (f : N -> X) n x m : m <> n -> upd f n x m = f m.
Proof. intros H. unfold upd. replace (m =? n) with false; auto. symmetry. apply N.eqb_neq. auto. Qed.

(* what a legal call by somebody else does *)
Lemma exec_rely own o2 s c : legal own s c ->
  (forall n, In n o2 -> f_hold s n <> None /\ ~ In n own) ->
  rely o2 s (fst (exec c s)).
Proof.
  intros Hl Ho.
  assert (G : forall s', (forall n, f_silo s' n = f_silo s n) ->
     (forall n, In n o2 -> f_hold s' n = f_hold s n) -> f_idx s' = f_idx s -> rely o2 s s').
  { intros s' H1 H2 H3. split; [|split].
    - intros n Hn. repeat split; auto. unfold entries. rewrite H3. auto.
    - intros n b w H. exists [], w. rewrite app_nil_r, H1. auto.
    - exists []. rewrite app_nil_r, H3. auto. }
  destruct c; cbn [exec fst legal] in *; try apply rely_refl.
  - destruct (f_hold s n) eqn:E; cbn [fst]; [apply rely_refl|]. apply G; auto.
    intros m Hm. cbn [set_hold f_hold]. apply upd_other. intros ->. apply Ho in Hm. tauto.
  - apply G; auto. intros m Hm. cbn [set_hold f_hold]. apply upd_other. intros ->. apply Ho in Hm. tauto.
  - apply G; auto. intros m Hm. cbn [set_hold f_hold]. apply upd_other. intros ->. apply Ho in Hm. tauto.
  - destruct (f_silo s n) eqn:E; cbn [fst]; [apply rely_refl|]. split; [|split].
    + intros m Hm. cbn [set_silo f_silo f_hold]. rewrite upd_other; [auto|]. intros ->. apply Ho in Hm. tauto.
    + intros m b w H. cbn [set_silo f_silo]. exists [], w. rewrite app_nil_r. rewrite upd_other; [auto|congruence].
    + exists []. rewrite app_nil_r. auto.
  - apply G; auto. intros m Hm. cbn [set_hold f_hold]. apply upd_other. intros ->. apply Ho in Hm. tauto.
  - destruct Hl as (Hl & b & E). rewrite E. split; [|split].
    + intros m Hm. cbn [set_silo f_silo f_hold]. rewrite upd_other; [auto|]. intros ->. apply Ho in Hm. tauto.
    + intros m b' w H. cbn [set_silo f_silo]. destruct (N.eq_dec m n) as [->|X].
      * rewrite upd_same. rewrite E in H. injection H as <- <-. exists d, true. split; auto. discriminate.
      * rewrite upd_other by auto. exists [], w. rewrite app_nil_r. auto.
    + exists []. rewrite app_nil_r. auto.
  - apply G; auto.
  - split; [|split].
    + intros m Hm. cbn [f_silo f_hold]. repeat split; auto. unfold entries. cbn [f_idx]. rewrite filter_app.
      cbn [filter]. replace (e_silo e =? m) with false; [rewrite app_nil_r; auto|].
      symmetry. apply N.eqb_neq. intros E. rewrite E in *. apply Ho in Hm. tauto.
    + intros m b w H. exists [], w. rewrite app_nil_r. auto.
    + exists [e]. auto.
Qed.

Lemma torn_rely own o2 s s' c : torn c s s' -> legal own s c ->
  (forall n, In n o2 -> f_hold s n <> None /\ ~ In n own) -> rely o2 s s'.
Proof. intros H Hl Ho. destruct H; apply (exec_rely own); auto. Qed.

Lemma rm_app n (a b : list N) : rm n (a ++ b) = rm n a ++ rm n b.
Proof. induction a as [|x a IH]; auto. cbn [app remove]. destruct (N.eq_dec n x); auto. cbn [app]. congruence. Qed.

Lemma own_after_cases c (a : ans c) own :
  (exists n, c = CCreat n /\ own_after c a own = n :: own) \/
  (exists n, c = CUnlink n /\ own_after c a own = rm n own) \/
  own_after c a own = own.
Proof. destruct c; cbn [own_after]; eauto. destruct a; eauto. Qed.

Section Wp.
Variable inv : fs -> Prop.
Variable D : death -> Prop.

Fixpoint wp {A} (Q : A -> list N -> fs -> Prop) (own : list N) (s : fs) (p : prog A) : Prop :=
  match p with
  | Ret a => Q a own s
  | Die d => D d
  | Call c k => forall s1, rely own s s1 -> inv s1 ->
      legal own s1 c /\ (forall s', torn c s1 s' -> inv s') /\
      inv (fst (exec c s1)) /\
      wp Q (own_after c (snd (exec c s1)) own) (fst (exec c s1)) (k (snd (exec c s1)))
  end.

Lemma wp_conseq {A} (Q Q' : A -> list N -> fs -> Prop) p : forall own s,
  (forall a o s', Q a o s' -> Q' a o s') -> wp Q own s p -> wp Q' own s p.
Proof.
  induction p as [a|d|c k IH]; intros own s H W; cbn [wp] in *; auto.
  intros s1 R I. destruct (W s1 R I) as (A1 & A2 & A3 & A4). repeat split; auto.
Qed.

Lemma wp_bind {A B} (Q : B -> list N -> fs -> Prop) (p : prog A) (f : A -> prog B) : forall own s,
  wp (fun a o s' => wp Q o s' (f a)) own s p -> wp Q own s (bindp p f).
Proof.
  induction p as [a|d|c k IH]; intros own s W; cbn [wp bindp] in *; auto.
  intros s1 R I. destruct (W s1 R I) as (A1 & A2 & A3 & A4). repeat split; auto.
Qed.

Lemma wp_seq {A B} (Q : B -> list N -> fs -> Prop) (R : A -> list N -> fs -> Prop) (p : prog A) (f : A -> prog B) own s :
  wp R own s p -> (forall a o s', R a o s' -> wp Q o s' (f a)) -> wp Q own s (bindp p f).
Proof. intros H1 H2. apply wp_bind. eapply wp_conseq; eauto. Qed.

Lemma wp_lift {A} (Q : A -> list N -> fs -> Prop) own s (r : res A) :
  (forall a, r = Ok a -> Q a own s) -> (r = Abort -> D DAbort) -> (r = UB -> D DUB) -> (r = Fuel -> D DFuel) ->
  wp Q own s (lift r).
Proof. intros. destruct r; cbn [lift wp]; auto. Qed.

Lemma wp_assert {B} (Q : B -> list N -> fs -> Prop) own s (b : bool) (f : unit -> prog B) :
  D DAbort -> (b = true -> wp Q own s (f tt)) -> wp Q own s (bindp (assert b) f).
Proof. intros. destruct b; cbn [assert bindp wp]; auto. Qed.

Lemma wp_sys {B} (Q : B -> list N -> fs -> Prop) own s c (f : ans c -> prog B) :
  (forall s1, rely own s s1 -> inv s1 ->
     legal own s1 c /\ (forall s', torn c s1 s' -> inv s') /\ inv (fst (exec c s1)) /\
     wp Q (own_after c (snd (exec c s1)) own) (fst (exec c s1)) (f (snd (exec c s1)))) ->
  wp Q own s (bindp (sys c) f).
Proof. intros H. cbn [sys bindp wp]. exact H. Qed.

(** * Other numbers owned stay as they are *)
Lemma wp_frame {A} (Q : A -> list N -> fs -> Prop) p : forall own o2 s,
  (forall n, In n o2 -> f_hold s n <> None /\ ~ In n own) -> wp Q own s p ->
  wp (fun a o s' => exists o1, o = o1 ++ o2 /\ Q a o1 s' /\ rely o2 s s' /\
                      forall n, In n o2 -> ~ In n o1) (own ++ o2) s p.
Proof.
  induction p as [a|d|c k IH]; intros own o2 s Ho W; cbn [wp] in *; auto.
  - exists own. split; [auto|split; [auto|split; [apply rely_refl|]]]. intros n Hn. apply Ho. auto.
  - intros s1 R I.
    assert (R1 : rely own s s1) by (eapply rely_mono; [|exact R]; intros; apply in_or_app; auto).
    assert (R2 : rely o2 s s1) by (eapply rely_mono; [|exact R]; intros; apply in_or_app; auto).
    destruct (W s1 R1 I) as (A1 & A2 & A3 & A4).
    assert (Ho1 : forall n, In n o2 -> f_hold s1 n <> None /\ ~ In n own).
    { intros n Hn. destruct R2 as (R2 & _). destruct (R2 n Hn) as (_ & -> & _). auto. }
    assert (R3 : rely o2 s1 (fst (exec c s1))) by (apply (exec_rely own); auto).
    assert (L2 : legal (own ++ o2) s1 c).
    { destruct c; cbn [legal] in *; auto; try (apply in_or_app; left; tauto). destruct A1. split; auto. apply in_or_app; auto. }
    split; [auto|split; [auto|split; [auto|]]].
    assert (E : own_after c (snd (exec c s1)) (own ++ o2) = own_after c (snd (exec c s1)) own ++ o2).
    { clear - Ho1 A1. destruct c; cbn [own_after]; auto.
      - destruct (snd (exec (CCreat n) s1)); auto.
      - rewrite rm_app, (notin_remove N.eq_dec o2); auto. intros H. cbn [legal] in A1. apply Ho1 in H. tauto. }
    rewrite E. eapply wp_conseq; [|apply IH; [|exact A4]].
    + cbn beta. intros a o s' (o1 & E1 & Q1 & R4 & X). exists o1. split; [auto|split; [auto|split; [|auto]]].
      apply (rely_trans o2 s s1); auto. apply (rely_trans o2 s1 _ s' R3); auto.
    + intros n Hn. split.
      * destruct R3 as (R3 & _). destruct (R3 n Hn) as (_ & -> & _). apply Ho1. auto.
      * destruct (Ho1 n Hn) as (H1 & H2). clear - H1 H2 A1. destruct c; cbn [own_after]; auto.
        -- cbn [exec]. destruct (f_hold s1 n0) eqn:E; cbn [snd]; auto. intros [->|]; auto.
        -- intros H. apply in_remove in H. tauto.
Qed.

(** * Running alone *)
Lemma wp_run {A} (Q : A -> list N -> fs -> Prop) h0 p : forall own s, wp Q own s p -> inv s ->
  (forall n, In n own -> f_hold s n <> None /\ h0 n = None) ->
  (forall n, ~ In n own -> f_hold s n = h0 n) ->
  let (s', r) := run p s in
  inv s' /\ match r with
  | inl a => exists own', Q a own' s' /\ (forall n, In n own' -> f_hold s' n <> None /\ h0 n = None) /\
        (forall n, ~ In n own' -> f_hold s' n = h0 n)
  | inr d => D d
  end.
Proof.
  induction p as [a|d|c k IH]; intros own s W I Ho Hn; cbn [wp run] in *.
  - split; auto. exists own. auto.
  - auto.
  - destruct (W s (rely_refl _ _) I) as (A1 & A2 & A3 & A4). destruct (exec c s) as [s2 a] eqn:E. cbn [fst snd] in *.
    specialize (IH a _ _ A4 A3). destruct (run (k a) s2) as [s' r].
    assert (H : (forall n, In n (own_after c a own) -> f_hold s2 n <> None /\ h0 n = None) /\
                (forall n, ~ In n (own_after c a own) -> f_hold s2 n = h0 n)).
    { clear - E Ho Hn A1. assert (HH : forall m d, In m own -> (forall n, In n own -> upd (f_hold s) m (Some d) n <> None /\ h0 n = None) /\
         (forall n, ~ In n own -> upd (f_hold s) m (Some d) n = h0 n)).
      { intros m d Hm. split; intros n H; unfold upd; destruct (n =? m) eqn:X.
        - split; [discriminate|apply Ho; auto].
        - apply Ho. auto.
        - apply N.eqb_eq in X. congruence.
        - auto. }
      destruct c; cbn [own_after exec legal] in *; try (injection E as <- <-; cbn [set_hold set_silo f_hold]; auto; fail).
      - destruct (f_hold s n) eqn:F; injection E as <- <-; auto. cbn [set_hold f_hold]. split; intros m Hm.
        + destruct (N.eq_dec m n) as [->|X].
          * rewrite upd_same. split; [discriminate|]. rewrite <- Hn; auto. intros X. apply Ho in X. tauto.
          * rewrite upd_other by auto. apply Ho. destruct Hm; congruence.
        + rewrite upd_other. { apply Hn. intros X. apply Hm. right; auto. } intros ->. apply Hm. left; auto.
      - destruct (f_silo s n); injection E as <- <-; auto.
      - injection E as <- <-. cbn [set_hold f_hold]. split; intros m Hm.
        + apply in_remove in Hm. rewrite upd_other by tauto. apply Ho. tauto.
        + destruct (N.eq_dec m n) as [->|X].
          * rewrite upd_same. symmetry. apply Ho. auto.
          * rewrite upd_other by auto. apply Hn. intros Y. apply Hm. apply in_in_remove; auto.
      - injection E as <- <-. destruct (f_silo s n) as [[b w]|]; auto. }
    destruct H as [H1 H2]. destruct (IH H1 H2) as (I' & X). auto.
Qed.
End Wp.
