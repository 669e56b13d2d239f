(* mksilo: alone, at the same time as others, and its command line. *)
From Coq Require Import String Permutation.
From Coq Require Import ZifyBool ZifyNat ZifyN.
From Verif Require Import Base BaseLemmas ListLemmas IndexModel IndexSpec HeaderModel HeaderSpec HeaderProofs
  InflateSpec InflateProofs GzipModel GzipSpec GzipProofs ProgModel StoreModel StoreSpec StoreSysModel StoreWp StoreSys StoreHdr
  StoreWrite StoreCommit StoreCalls StoreMk StoreWorld LiveSpec LiveMain LiveRuns CmdModel CmdSpec CmdMain MkModel MkSpec.
Open Scope string_scope.
Open Scope list_scope.
Open Scope N_scope.

(** * The command line *)

Lemma digit_in_spec b c d : b <= 36 -> digit_in b c = Some d <-> digit_of c d /\ d < b.
Proof.
  intros B. unfold digit_in, digit. split.
  - intros H. destruct ((48 <=? c) && (c <=? 57)) eqn:E1; [|destruct ((97 <=? c) && (c <=? 122)) eqn:E2; [|destruct ((65 <=? c) && (c <=? 90)) eqn:E3; [|discriminate]]];
      (destruct (_ <? b) eqn:E4 in H; [|discriminate]); injection H as <-; (split; [|lia]).
    + replace c with (48 + (c - 48)) at 1 by lia. constructor. lia.
    + replace c with (87 + (c - 87)) at 1 by lia. constructor. lia.
    + replace c with (55 + (c - 55)) at 1 by lia. constructor. lia.
  - intros (H & L). inversion H; subst.
    + replace ((48 <=? 48 + d) && (48 + d <=? 57)) with true by lia. replace (48 + d - 48) with d by lia. replace (d <? b) with true by lia. auto.
    + replace ((48 <=? 87 + d) && (87 + d <=? 57)) with false by lia. replace ((97 <=? 87 + d) && (87 + d <=? 122)) with true by lia.
      replace (87 + d - 87) with d by lia. replace (d <? b) with true by lia. auto.
    + replace ((48 <=? 55 + d) && (55 + d <=? 57)) with false by lia. replace ((97 <=? 55 + d) && (55 + d <=? 122)) with false by lia.
      replace ((65 <=? 55 + d) && (55 + d <=? 90)) with true by lia.
      replace (55 + d - 55) with d by lia. replace (d <? b) with true by lia. auto.
Qed.

Lemma digits_app b l : forall l' v a, b <= 36 -> numeral b l v -> digits b a (l ++ l') = digits b (a * b ^ len l + v) l'.
Proof.
  intros l' v a B H. revert l' a. induction H as [|l v c d H IH D LT]; intros l' a.
  - cbn [app]. unfold len. cbn [List.length N.of_nat]. rewrite N.pow_0_r. f_equal. lia.
  - rewrite <- app_assoc, IH. cbn [app digits]. destruct (digit_in_spec b c d B) as (_ & E). rewrite E by auto.
    rewrite len_app. change (len [c]) with 1. rewrite N.pow_add_r, N.pow_1_r. f_equal. lia.
Qed.
Lemma digits_num b l v : b <= 36 -> numeral b l v -> digits b 0 l = v.
Proof. intros B H. pose proof (digits_app b l [] v 0 B H) as E. rewrite app_nil_r in E. rewrite E. cbn [digits]. lia. Qed.

Lemma num_first b c l v : numeral b (c :: l) v -> exists d, digit_of c d /\ d < b.
Proof.
  intros H. remember (c :: l) as m eqn:E. revert c l E. induction H as [|m v x d H IH D LT]; intros c l E; [discriminate|].
  destruct m as [|y m]; cbn [app] in E; [injection E as <- <-; eauto|injection E as <- _; eapply IH; reflexivity].
Qed.

Lemma unsigned_spec t v : reads_as t v -> unsigned_part t = v.
Proof.
  intros [c l v' NC H|l v' H|x l v' X NE H].
  - cbn [unsigned_part]. replace (c =? 48) with false by lia. apply digits_num; [lia|auto].
  - cbn [unsigned_part]. change (48 =? 48) with true. cbn iota.
    destruct l as [|x [|y r]]; [apply digits_num; [lia|auto]|apply digits_num; [lia|auto]|].
    replace ((x =? 120) || (x =? 88)) with false.
    { cbn [andb]. apply digits_num; [lia|auto]. }
    destruct (num_first _ _ _ _ H) as (d & D & LT). symmetry. inversion D; subst; lia.
  - destruct l as [|y r]; [tauto|]. cbn [unsigned_part]. change (48 =? 48) with true. cbn iota.
    replace ((x =? 120) || (x =? 88)) with true by lia. destruct (num_first _ _ _ _ H) as (d & D & LT).
    destruct (digit_in_spec 16 y d) as (_ & E); [lia|]. rewrite E by auto. cbn [andb]. apply digits_num; [lia|auto].
Qed.

Lemma strtoul_spec t v : reads_as t v -> v < 2 ^ 64 -> strtoul t = v.
Proof.
  intros R LT. pose proof (unsigned_spec t v R) as U.
  assert (F : exists c l d, t = c :: l /\ digit_of c d /\ d < 10).
  { inversion R as [c l v' NC H|l v' H|x l v' X NE H]; subst.
    - destruct (num_first _ _ _ _ H) as (d & D & L). exists c, l, d. auto.
    - exists 48, l, 0. split; [auto|]. split; [|lia]. apply (dg_09 0). lia.
    - exists 48, (x :: l), 0. split; [auto|]. split; [|lia]. apply (dg_09 0). lia. }
  destruct F as (c & l & d & E & D & L). assert (RC : 48 <= c <= 57) by (inversion D; subst; lia).
  unfold strtoul. subst t. cbn [skip_blank]. unfold is_blank. replace ((c =? 32) || (9 <=? c) && (c <=? 13)) with false by lia. cbv zeta.
  replace (c =? 45) with false by lia. replace (c =? 43) with false by lia. cbn [orb]. rewrite U. replace (2 ^ 64 <=? v) with false by lia. auto.
Qed.

Lemma mksilo_getopt os ops args : written [] [o_h] os ops args <-> getopt "h" args = (map ev os, ops).
Proof.
  assert (TV : forall c, takes (str "h") c = Some true <-> In c []) by takes_tac ([104]).
  assert (TF : forall c, takes (str "h") c = Some false <-> In c [o_h]) by takes_tac ([104]).
  split; intros H.
  - eapply loop_written; eauto; try (cbn; unfold o_h; lia).
  - eapply loop_inv; eauto; try (cbn; unfold o_h; lia).
Qed.

Lemma mksilo_number C L t v rest args s : written [] [o_h] [] (t :: rest) args -> reads_as t v -> v < 2 ^ 32 ->
  run (mksilo_cmd C L args) s = run (main_mksilo C L v) s.
Proof.
  intros W R LT. apply mksilo_getopt in W. unfold mksilo_cmd. rewrite W. cbn [map]. rewrite (strtoul_spec t v R) by lia.
  rewrite N.mod_small by auto. auto.
Qed.

Lemma strtoul_signed t z : signed t z -> (Z.abs z < 2 ^ 64)%Z -> Z.of_N (strtoul t) = (z mod 2 ^ 64)%Z.
Proof.
  induction 1 as [t v R|t v R|t v R|c t z B _ IH]; intros LT.
  - rewrite (strtoul_spec t v R) by lia. rewrite Z.mod_small; lia.
  - pose proof (unsigned_spec t v R) as U. unfold strtoul. cbn [skip_blank]. change (is_blank 43) with false. cbv zeta iota.
    change (43 =? 45) with false. change (43 =? 43) with true. cbn [orb]. rewrite U. replace (2 ^ 64 <=? v) with false by lia. rewrite Z.mod_small; lia.
  - pose proof (unsigned_spec t v R) as U. unfold strtoul. cbn [skip_blank]. change (is_blank 45) with false. cbv zeta iota.
    change (45 =? 45) with true. cbn [orb]. rewrite U. replace (2 ^ 64 <=? v) with false by lia.
    rewrite N2Z.inj_mod, N2Z.inj_sub by lia. replace (Z.of_N (2 ^ 64) - Z.of_N v)%Z with (- Z.of_N v + 1 * 2 ^ 64)%Z by (change (Z.of_N (2 ^ 64)) with (2 ^ 64)%Z; lia).
    change (Z.of_N (2 ^ 64)) with (2 ^ 64)%Z. apply Z.mod_add. lia.
  - rewrite <- IH by auto. unfold strtoul. cbn [skip_blank]. replace (is_blank c) with true by (unfold is_blank; symmetry; lia). auto.
Qed.
Lemma mksilo_wraps C L t z rest args s : written [] [o_h] [] (t :: rest) args -> signed t z -> (Z.abs z < 2 ^ 64)%Z ->
  run (mksilo_cmd C L args) s = run (main_mksilo C L (Z.to_N (z mod 2 ^ 32))) s.
Proof.
  intros W R LT. apply mksilo_getopt in W. unfold mksilo_cmd. rewrite W. cbn [map].
  replace (strtoul t mod 2 ^ 32) with (Z.to_N (z mod 2 ^ 32)); [auto|].
  apply N2Z.inj. rewrite N2Z.inj_mod, (strtoul_signed t z R LT). change (Z.of_N (2 ^ 32)) with (2 ^ 32)%Z.
  rewrite Z2N.id by (apply Z.mod_pos_bound; lia). rewrite <- Znumtheory.Zmod_div_mod; [auto|lia|lia|]. exists (2 ^ 32)%Z. reflexivity.
Qed.

(* without a number, or with an option *)
Lemma mksilo_refused C L args s : (forall t rest, ~ written [] [o_h] [] (t :: rest) args) ->
  run (mksilo_cmd C L args) s = (s, inr DExit).
Proof.
  intros H. unfold mksilo_cmd. destruct (getopt "h" args) as [e ops] eqn:G. destruct e as [|e1 e2]; [|auto]. destruct ops as [|t rest]; [auto|].
  exfalso. apply (H t rest). apply mksilo_getopt. auto.
Qed.

(** * Alone *)

Section Alone.
Variable C : conf.
Variable L : zlib.
Hypothesis CO : conf_ok C.
Hypothesis ZO : zlib_ok L.
Hypothesis ZL : zlib_live L.

Lemma mksilo_taken n s : f_silo s n <> None \/ f_hold s n <> None -> run (main_mksilo C L n) s = (s, inr DExit).
Proof.
  intros H. unfold main_mksilo, Wsilo_New. cbn [bindp sys run exec]. destruct (f_silo s n) as [[b w]|] eqn:E; [reflexivity|].
  cbn [bindp run exec]. destruct H as [H|H]; [congruence|]. destruct (f_hold s n) as [hb|] eqn:EH; [|congruence]. reflexivity.
Qed.

Lemma mksilo_alive n s : inv C L s -> at_rest s -> info_fits C -> n < 2 ^ 32 - 1 -> f_silo s n = None ->
  exists s' b e, run (main_mksilo C L n) s = (s', inl tt) /\
    (forall m, f_silo s' m = if m =? n then Some (b, true) else f_silo s m) /\ f_idx s' = f_idx s ++ [e] /\ at_rest s' /\ f_clock s' = f_clock s.
Proof.
  intros I AR FI LT FN.
  assert (FIT : forall m, m < 2 ^ 32 -> len (warcinfo_body C (c_base C m)) <= 2 ^ 19 /\
    2 * len (warcinfo_body C (c_base C m)) + 8 * 0 + 12000 <= c_max C).
  { intros m Hm. destruct (FI m Hm). split; lia. }
  pose proof (proj2 I) as DT.
  assert (A : alive (main_mksilo C L n) s (fun _ s' => exists b e,
    (forall m, f_silo s' m = if m =? n then Some (b, true) else f_silo s m) /\ f_idx s' = f_idx s ++ [e] /\ at_rest s' /\ f_clock s' = f_clock s)).
  { unfold main_mksilo. eapply al_bind with (Q := fun x s' => exists sl r, x = Some sl /\ held s (fun _ => None) s' n r /\ w_no sl = n).
    - unfold Wsilo_New. apply al_sys. cbn [exec fst snd]. rewrite FN. apply al_sys. cbn [exec fst snd]. rewrite AR.
      apply al_sys. cbn [exec]. rewrite AR. cbn [fst snd negb].
      eapply al_bind; [apply (Warcinfo_live C L CO ZO ZL s DT (fun _ => None) 0 FIT _ n); [lia|]|].
      + split; [split; auto|]. cbn [set_hold f_hold]. rewrite upd_same. split; [auto|]. intros k Hk. rewrite upd_other; auto.
      + cbn beta. intros sl s' (r & H1 & H2 & H3). apply al_ret. exists sl, r. split; [auto|]. split; [auto|]. rewrite H3. auto.
    - cbn beta. intros x s1 (sl & r & -> & ((S1 & S2 & S3) & H1 & H2) & EN). unfold Wsilo_Install, insert.
      eapply al_bind with (Q := fun _ s' => exists b e,
        (forall m, f_silo s' m = if m =? n then Some (b, true) else f_silo s m) /\ f_idx s' = f_idx s ++ [e] /\ at_rest s' /\ f_clock s' = f_clock s);
        [|cbn beta; intros ? s' H; apply al_ret; exact H].
      apply al_sys. rewrite EN. apply al_sys. cbn [exec fst snd f_silo]. rewrite S1, FN. cbn [fst snd].
      unfold hold_of. cbn [f_hold]. rewrite H1. apply al_assert; [auto|]. cbn [fst snd].
      set (e := ideal (w_wid sl) IDX_F_WARCINFO n 0 None).
      set (s2 := set_silo (mkFs (f_silo s) (f_hold s1) (f_idx s1 ++ [e]) (f_cache s1) (f_clock s1)) n (Some (r, true))).
      eapply al_bind with (Q := fun _ s' => f_silo s' = f_silo s2 /\ f_hold s' = f_hold s2 /\ f_idx s' = f_idx s2 /\ f_clock s' = f_clock s2).
      { destruct (n =? 0); [|apply al_ret; auto]. unfold WriteCache. apply al_sys. apply al_ret. repeat split. }
      cbn beta. intros aa3 s3 (T1 & T2 & T3 & T4). unfold wsilo_delete. apply al_sys. cbn [exec fst snd]. apply al_ret. exists r, e. rewrite EN.
      cbn [set_hold f_silo f_hold f_idx f_clock]. rewrite T1, T3, T4. unfold s2. cbn [set_silo f_silo f_idx f_clock].
      split. { intros m. unfold upd. rewrite N.eqb_sym. reflexivity. }
      split; [rewrite S2; auto|]. split; [|auto]. intros m. cbn [set_hold f_hold]. destruct (N.eq_dec m n) as [->|NE]; [apply upd_same|].
      rewrite upd_other by auto. rewrite T2. unfold s2. cbn [set_silo f_hold]. auto. }
  destruct A as ([] & s' & R & b & e & H). exists s', b, e. split; auto.
Qed.

Lemma mksilo_free x n : reach C L x -> (forall j p, In (j, p) (wo_procs x) -> exists a, p = Ret a) -> info_fits C -> n < 2 ^ 32 - 1 ->
  f_silo (wo_fs x) n = None ->
  exists s' b e, run (main_mksilo C L n) (wo_fs x) = (s', inl tt) /\ silo_there C L s' n /\
    (forall m, f_silo s' m = if m =? n then Some (b, true) else f_silo (wo_fs x) m) /\ f_idx s' = f_idx (wo_fs x) ++ [e] /\ at_rest s'.
Proof.
  intros R HR FI LT FN. pose proof (all_done C L CO ZO x R HR) as AR. pose proof (reach_inv C L CO ZO x R) as I.
  destruct (mksilo_alive n (wo_fs x) I AR FI LT FN) as (s' & b & e & E & H1 & H2 & H3 & H4). exists s', b, e. split; [auto|]. split; [|auto].
  destruct x as [s ps]. cbn [wo_fs wo_procs] in *.
  assert (RJ : reach C L (mkWorld s' (ps ++ [(JMk n, Ret None)]))).
  { apply (run_reach C L s ps (JMk n) s' None); [exact LT|auto|]. cbn [job_prog]. rewrite run_bind, E. auto. }
  destruct (done_post C L CO ZO _ (JMk n) None RJ) as (_ & H); [cbn [wo_procs]; apply in_or_app; right; left; auto|exact H].
Qed.

Lemma mksilo_made x n a : reach C L x -> In (JMk n, Ret a) (wo_procs x) -> silo_there C L (wo_fs x) n.
Proof. intros R H. destruct (done_post C L CO ZO x _ _ R H) as (_ & X). exact X. Qed.
End Alone.

(** * At the same time *)

Fixpoint must {A} (n : N) (p : prog A) : Prop :=
  match p with
  | Ret _ => False
  | Die _ => True
  | Call c k => forall s, (c = CLink n -> f_silo s n <> None) -> must n (k (snd (exec c s)))
  end.
Fixpoint rets {A} (P : A -> Prop) (p : prog A) : Prop :=
  match p with Ret a => P a | Die _ => True | Call _ k => forall a, rets P (k a) end.

Lemma must_bind {A B} n P (p : prog A) (f : A -> prog B) : rets P p -> (forall a, P a -> must n (f a)) -> must n (bindp p f).
Proof. intros H K. induction p as [a|d|c k IH]; cbn [bindp must rets] in *; auto. Qed.
Lemma rets_bind {A B} (P : A -> Prop) (Q : B -> Prop) (p : prog A) (f : A -> prog B) : rets P p -> (forall a, P a -> rets Q (f a)) -> rets Q (bindp p f).
Proof. intros H K. induction p as [a|d|c k IH]; cbn [bindp rets] in *; auto. Qed.
Lemma rets_any {A} (p : prog A) : rets (fun _ => True) p.
Proof. induction p; cbn [rets]; auto. Qed.

Section Same.
Variable C : conf.
Variable L : zlib.

Lemma put_no sl d : rets (fun x => w_no x = w_no sl) (put C sl d).
Proof.
  unfold put, Wsilo_Store. eapply rets_bind; [apply rets_any|]. intros _ _. eapply rets_bind; [apply rets_any|]. intros _ _.
  eapply rets_bind; [apply rets_any|]. intros _ _.
  repeat (first [ match goal with |- rets _ (if ?b then _ else _) => destruct b end | (eapply rets_bind; [apply rets_any|]; intros ? _) | reflexivity]).
Qed.
Lemma winfo_no sl n : rets (fun x => w_no x = w_no sl) (Warcinfo_New C L sl n).
Proof.
  unfold Warcinfo_New. cbv zeta. repeat match goal with
    | |- rets _ (bindp (put _ _ _) _) => eapply rets_bind; [apply put_no|]; cbn beta; intros ? ?
    | |- rets _ (bindp _ _) => eapply rets_bind; [apply rets_any|]; intros ? _ end.
  cbn [rets w_no]. congruence.
Qed.
Lemma mksilo_must n : must n (main_mksilo C L n).
Proof.
  unfold main_mksilo. apply must_bind with (P := fun x => match x with Some sl => w_no sl = n | None => True end).
  - unfold Wsilo_New. cbn [bindp sys rets]. intros [z|]; [exact I|]. cbn [bindp rets]. intros [|]; [exact I|]. cbn [bindp rets].
    intros [|]; [|exact I]. cbn [negb]. eapply rets_bind; [apply winfo_no|]. cbn beta. cbn [w_no rets]. auto.
  - intros [sl|] H; [|exact I]. unfold Wsilo_Install, insert. rewrite H. cbn [bindp sys must]. intros s _. cbn [bindp must]. intros s' X.
    cbn [exec]. specialize (X eq_refl). destruct (f_silo s' n) as [[b w]|]; [|tauto]. cbn [snd assert bindp must]. exact I.
Qed.

Lemma exec_silo c s n : f_silo s n <> None -> f_silo (fst (exec c s)) n <> None.
Proof.
  intros H. destruct c; cbn [exec fst]; auto;
    repeat match goal with |- context [match ?x with _ => _ end] => destruct x eqn:? end; cbn [fst set_hold set_silo f_silo]; auto;
    try (unfold upd; destruct (_ =? _); congruence).
Qed.
Lemma exec_none c s n : f_silo s n = None -> f_silo (fst (exec c s)) n = None -> c <> CLink n.
Proof.
  intros H H' ->. cbn [exec] in H'. rewrite H in H'. cbn [fst set_silo f_silo] in H'. rewrite upd_same in H'. discriminate.
Qed.

Definition uniq (n : N) (x : world) : Prop :=
  (f_silo (wo_fs x) n = None -> forall i p, nth_error (wo_procs x) i = Some (JMk n, p) -> must n p) /\
  (forall i j p q, i <> j -> nth_error (wo_procs x) i = Some (JMk n, p) -> nth_error (wo_procs x) j = Some (JMk n, q) -> must n p \/ must n q).

Lemma nth_mid_cases {A} (l1 l2 : list A) x y i z : nth_error (l1 ++ y :: l2) i = Some z ->
  i = List.length l1 /\ z = y \/ i <> List.length l1 /\ nth_error (l1 ++ x :: l2) i = Some z.
Proof.
  intros H. destruct (Nat.lt_trichotomy i (List.length l1)) as [X|[X|X]].
  - right. split; [lia|]. rewrite nth_error_app1 in * by auto. auto.
  - left. split; [auto|]. rewrite nth_error_app2 in H by lia. replace (i - List.length l1)%nat with O in H by lia. cbn in H. congruence.
  - right. split; [lia|]. rewrite nth_error_app2 in * by lia. destruct (i - List.length l1)%nat eqn:E; [lia|]. auto.
Qed.
Lemma nth_mid_at {A} (l1 l2 : list A) x : nth_error (l1 ++ x :: l2) (List.length l1) = Some x.
Proof. rewrite nth_error_app2, Nat.sub_diag by lia. auto. Qed.

(* what a step of the process in the middle needs *)
Lemma uniq_mid n s s' ps1 ps2 j p p' : uniq n (mkWorld s (ps1 ++ (j, p) :: ps2)) ->
  (f_silo s n <> None -> f_silo s' n <> None) ->
  (j = JMk n -> must n p -> f_silo s' n = None \/ f_silo s n <> None -> must n p') ->
  uniq n (mkWorld s' (ps1 ++ (j, p') :: ps2)).
Proof.
  intros (U1 & U2) MO H. cbn [wo_fs wo_procs] in *. split; cbn [wo_fs wo_procs].
  - intros F i q N1. assert (F0 : f_silo s n = None) by (destruct (f_silo s n); [destruct MO; congruence|auto]).
    destruct (nth_mid_cases ps1 ps2 (j, p) (j, p') i _ N1) as [(-> & E)|(NI & N2)]; [|apply (U1 F0 i); auto].
    injection E as <- ->. apply H; auto. apply (U1 F0 _ p (nth_mid_at _ _ _)).
  - assert (K : forall i q, i <> List.length ps1 -> nth_error (ps1 ++ (j, p') :: ps2) i = Some (JMk n, q) -> j = JMk n -> must n p' \/ must n q).
    { intros i q NI N1 EJ. destruct (nth_mid_cases ps1 ps2 (j, p) (j, p') i _ N1) as [(X & _)|(_ & N2)]; [tauto|].
      destruct (f_silo s n) as [z|] eqn:F.
      - subst j. destruct (U2 (List.length ps1) i p q) as [M|M]; auto using nth_mid_at. left. apply H; auto. right. congruence.
      - right. apply (U1 eq_refl i). auto. }
    intros a b q r AB N1 N2.
    destruct (nth_mid_cases ps1 ps2 (j, p) (j, p') a _ N1) as [(Ea & X)|(Na & M1)].
    { injection X as <- ->. apply (K b r); auto. congruence. }
    destruct (nth_mid_cases ps1 ps2 (j, p) (j, p') b _ N2) as [(Eb & X)|(Nb & M2)]; [|eauto].
    injection X as <- ->. destruct (K a q); auto.
Qed.

Lemma uniq_step n x l y : uniq n x -> lstep C L x l y -> uniq n y.
Proof.
  intros U S. inversion S; subst; clear S.
  - eapply uniq_mid; [exact U|apply exec_silo|]. intros _ M X. cbn [must] in M. apply M. intros ->.
    destruct X as [X|X]; [|auto]. intros F. exact (exec_none _ _ _ F X eq_refl).
  - eapply uniq_mid; [exact U|auto|]. intros _ _ _. exact I.
  - eapply uniq_mid; [exact U| |intros _ _ _; exact I]. inversion H; subst; apply exec_silo.
  - destruct U as (U1 & U2). cbn [wo_fs wo_procs] in *.
    assert (K : forall i p, nth_error (ps ++ [(j, job_prog C L j)]) i = Some (JMk n, p) -> nth_error ps i = Some (JMk n, p) \/ must n p).
    { intros i p N1. destruct (Nat.lt_ge_cases i (List.length ps)) as [X|X]; [left; rewrite nth_error_app1 in N1; auto|right].
      rewrite nth_error_app2 in N1 by auto. destruct (i - List.length ps)%nat as [|k]; cbn in N1; [|destruct k; discriminate].
      injection N1 as -> <-. cbn [job_prog]. pose proof (mksilo_must n) as M. clear -M. induction (main_mksilo C L n) as [a|d|c k IH]; cbn [bindp must] in *; auto. }
    split; cbn [wo_fs wo_procs].
    + intros F i p N1. destruct (K i p N1); [apply (U1 F i); auto|auto].
    + intros i j0 p q NE N1 N2. destruct (K i p N1) as [M1|M1]; [|auto]. destruct (K j0 q N2) as [M2|M2]; [|auto]. eauto.
  - exact U.
  - exact U.
  - destruct U as (U1 & U2). split; cbn [wo_fs wo_procs set_silo f_silo] in *; [|auto]. intros F. apply U1.
    unfold upd in F. destruct (_ =? _) eqn:X in F; [discriminate|auto].
Qed.

Lemma mksilo_once x n i j a b : reach C L x -> i <> j ->
  nth_error (wo_procs x) i = Some (JMk n, Ret a) -> nth_error (wo_procs x) j = Some (JMk n, Ret b) -> False.
Proof.
  intros (s & E & S) NE N1 N2.
  assert (U : uniq n x).
  { remember (mkWorld s []) as x0 eqn:X0. revert X0. clear N1 N2. induction S as [w|w1 w2 w3 S IH (l & T)]; intros ->.
    - split; cbn [wo_procs]; intros; destruct i0; discriminate.
    - eapply uniq_step; [apply IH; auto|exact T]. }
  destruct U as (_ & U). destruct (U i j _ _ NE N1 N2) as [[]|[]].
Qed.
End Same.
