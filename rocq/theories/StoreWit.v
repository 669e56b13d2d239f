(* Executions of the model on the toy zlib: a scheduler whose runs are runs of
   the system, and the runs used as witnesses. *)
From Coq Require Import String Permutation.
From Coq Require Import ZifyBool ZifyNat ZifyN.
From Verif Require Import Base BaseLemmas ListLemmas IndexModel IndexSpec HeaderModel HeaderSpec InflateSpec GzipModel GzipSpec SiloNameProofs
  ProgModel StoreModel StoreSpec StoreSysModel StoreWp StoreSys StoreHdr StoreWrite StoreToy StoreToyOk.
Open Scope string_scope.
Open Scope list_scope.
Open Scope N_scope.

Lemma dec_len10 n : n < 2 ^ 32 -> len (dec n) <= 20.
Proof. intros H. apply dec_len. lia. Qed.

Lemma toy_base n : n < 2 ^ 32 -> len (decpad 8 n) <= 28 /\ Forall (fun c => is_digit c = true) (decpad 8 n).
Proof.
  intros H. split; [|apply decpad_digits]. unfold decpad. rewrite len_app. pose proof (dec_len10 n H). unfold len at 1. rewrite repeat_length. lia.
Qed.

Lemma toy_conf_ok max : 12000 <= max < 2 ^ 62 -> conf_ok (toy_conf max).
Proof.
  intros M.
  assert (DG : forall l, Forall (fun c => is_digit c = true) l -> clean l /\ is_bytes l).
  { intros l H. rewrite Forall_forall in H. split; [split; intros X; apply H in X; discriminate|].
    apply Forall_forall. intros c Hc. apply H in Hc. unfold is_digit in Hc. lia. }
  assert (CL : forall l, forallb (fun c => negb (c =? 0) && negb (c =? 13) && (c <? 256)) l = true -> clean l /\ is_bytes l).
  { intros l H. rewrite forallb_forall in H. split; [split; intros X; apply H in X; discriminate|].
    apply Forall_forall. intros c Hc. apply H in Hc. lia. }
  split; cbn [toy_conf c_prefix c_idsize c_max c_base c_wbody c_gitrev].
  - split; [split; [apply CL; reflexivity|]; split; [|exists (str "http://example.com"); reflexivity]|].
    + intros X. revert X. vm_compute. intuition discriminate.
    + split; [apply CL; reflexivity|]. vm_compute. discriminate.
  - lia.
  - lia.
  - intros n Hn. destruct (toy_base n Hn) as (T1 & T2). destruct (DG _ T2) as ((D1 & D2) & D3). destruct (CL (str ".warc.gz") eq_refl) as ((E1 & E2) & E3).
    split; [|split].
    + split; rewrite in_app_iff; tauto.
    + apply Forall_app. auto.
    + rewrite len_app. change (len (str ".warc.gz")) with 8. lia.
  - split; [|apply CL; reflexivity]. repeat (constructor; [reflexivity|]). constructor.
  - intros n Hn. destruct (toy_base n Hn) as (T1 & _). unfold warcinfo_body. cbn [toy_conf c_wbody c_gitrev]. rewrite !len_app.
    repeat match goal with |- context [len (str ?x)] => let v := eval vm_compute in (len (str x)) in change (len (str x)) with v end.
    change (len crlf) with 2. change (len [13; 10]) with 2. lia.
Qed.

(** * A scheduler *)

Inductive act := ACall (i : nat) | AKill (i : nat) | ATorn (i : nat) (k : nat) | AStart (j : job) | AClock (d : bytes) | AProtect (n : N).

Definition cut (k : nat) (c : call) (s : fs) : option fs :=
  match c with
  | CWrite n d => Some (fst (exec (CWrite n (firstn k d)) s))
  | CPwrite n o d => Some (fst (exec (CPwrite n o (firstn k d)) s))
  | CAppend n d => Some (fst (exec (CAppend n (firstn k d)) s))
  | _ => None
  end.

Fixpoint set_nth_p {A} (i : nat) (a : A) (l : list A) : list A :=
  match l, i with
  | [], _ => []
  | _ :: r, O => a :: r
  | x :: r, S i => x :: set_nth_p i a r
  end.

Section Sched.
Variable C : conf.
Variable L : zlib.

Definition job_okb (j : job) : bool :=
  match j with
  | JGet _ _ => true
  | JMk n => n <? 2 ^ 32 - 1
  | JStore r =>
      forallb (fun c => negb (c =? 0) && negb (c =? 13) && (c <? 256)) (r_mime r) && (len (r_mime r) <=? 500) &&
      forallb (fun d => match d with [] => false | _ => forallb (fun c => c <? 256) d end) (r_data r) &&
      (len (List.concat (r_data r)) <? 2 ^ 62)
  end.

Definition act1 (a : act) (x : world) : option world :=
  match a with
  | ACall i =>
      match nth_error (wo_procs x) i with
      | Some (j, Call c k) => let y := exec c (wo_fs x) in
          Some (mkWorld (fst y) (set_nth_p i (j, k (snd y)) (wo_procs x)))
      | _ => None
      end
  | AKill i =>
      match nth_error (wo_procs x) i with
      | Some (j, Call c k) => Some (mkWorld (wo_fs x) (set_nth_p i (j, Die DKill) (wo_procs x)))
      | _ => None
      end
  | ATorn i n =>
      match nth_error (wo_procs x) i with
      | Some (j, Call c k) => match cut n c (wo_fs x) with
                              | Some s => Some (mkWorld s (set_nth_p i (j, Die DKill) (wo_procs x)))
                              | None => None
                              end
      | _ => None
      end
  | AStart j => if job_okb j then Some (mkWorld (wo_fs x) (wo_procs x ++ [(j, job_prog C L j)])) else None
  | AClock d => if (len d =? 20) && forallb (fun c => negb (c =? 0) && negb (c =? 13) && (c <? 256)) d
                then Some (mkWorld (set_clock (wo_fs x) d) (wo_procs x)) else None
  | AProtect n => match f_hold (wo_fs x) n, f_silo (wo_fs x) n with
                  | None, Some (b, w) => Some (mkWorld (set_silo (wo_fs x) n (Some (b, false))) (wo_procs x))
                  | _, _ => None
                  end
  end.

Fixpoint sched (l : list act) (x : world) : option world :=
  match l with
  | [] => Some x
  | a :: r => match act1 a x with Some y => sched r y | None => None end
  end.

Lemma set_nth_mid {A} (l : list A) : forall i x a, nth_error l i = Some x ->
  exists l1 l2, l = l1 ++ x :: l2 /\ set_nth_p i a l = l1 ++ a :: l2.
Proof.
  induction l as [|y l IH]; intros [|i] x a H; cbn [nth_error set_nth_p] in *; try discriminate.
  - injection H as ->. exists [], l. auto.
  - destruct (IH i x a H) as (l1 & l2 & -> & ->). exists (y :: l1), l2. auto.
Qed.

Lemma job_okb_ok j : job_okb j = true -> job_ok j.
Proof.
  destruct j as [r| |n]; cbn [job_okb job_ok]; auto; intros H; [|apply N.ltb_lt; auto]. rewrite !andb_true_iff in H. destruct H as (((H1 & H2) & H3) & H4).
  rewrite forallb_forall in H1, H3. split.
  - split; [split; intros X; apply H1 in X; discriminate|]. split; [|lia]. apply Forall_forall. intros c Hc. apply H1 in Hc. lia.
  - apply Forall_forall. intros d Hd. apply H3 in Hd. destruct d as [|b d]; [discriminate|]. split; [discriminate|].
    rewrite forallb_forall in Hd. apply Forall_forall. intros c Hc. apply Hd in Hc. lia.
  - lia.
Qed.

Lemma act1_step a x y : act1 a x = Some y -> step C L x y.
Proof.
  destruct x as [s ps]. unfold step. destruct a as [i|i|i n|j|d|n]; cbn [act1 wo_fs wo_procs].
  - destruct (nth_error ps i) as [[j [?|?|c k]]|] eqn:E; try discriminate. intros H. injection H as <-.
    destruct (set_nth_mid _ _ _ (j, k (snd (exec c s))) E) as (l1 & l2 & -> & ->). eexists. apply st_call.
  - destruct (nth_error ps i) as [[j [?|?|c k]]|] eqn:E; try discriminate. intros H. injection H as <-.
    destruct (set_nth_mid _ _ _ (j, Die DKill) E) as (l1 & l2 & -> & ->). eexists. apply st_kill.
  - destruct (nth_error ps i) as [[j [?|?|c k]]|] eqn:E; try discriminate. destruct (cut n c s) as [s'|] eqn:F; try discriminate. intros H. injection H as <-.
    destruct (set_nth_mid _ _ _ (j, Die DKill) E) as (l1 & l2 & -> & ->). eexists. apply st_torn.
    clear E. destruct c; cbn [cut] in F; try discriminate; injection F as <-; constructor; exists (skipn n d); symmetry; apply firstn_skipn.
  - destruct (job_okb j) eqn:J; try discriminate. intros H. injection H as <-. eexists. apply st_start. apply job_okb_ok. auto.
  - destruct (len d =? 20) eqn:A; try discriminate. cbn [andb]. destruct (forallb _ d) eqn:F; try discriminate. intros H. injection H as <-.
    eexists. apply st_clock. rewrite forallb_forall in F. split; [lia|]. split; [split; intros X; apply F in X; discriminate|].
    apply Forall_forall. intros c Hc. apply F in Hc. lia.
  - destruct (f_hold s n) eqn:A; try discriminate. destruct (f_silo s n) as [[b w]|] eqn:F; try discriminate. intros H. injection H as <-.
    eexists. eapply st_protect; eauto.
Qed.

Lemma sched_steps l : forall x y, sched l x = Some y -> steps C L x y.
Proof.
  assert (G : forall l x y z, steps C L x y -> sched l y = Some z -> steps C L x z).
  { clear l. induction l as [|a l IH]; intros x y z S H; cbn [sched] in H; [congruence|]. destruct (act1 a y) as [w|] eqn:E; [|discriminate].
    apply (IH x w z); [|auto]. apply (steps_step C L _ y); auto. eapply act1_step; eauto. }
  intros x y. apply G. constructor.
Qed.
End Sched.

Lemma fs0_empty : empty_fs fs0.
Proof.
  split; [auto|]. split; [auto|]. split; [auto|]. split; [auto|]. split; [reflexivity|]. split.
  - split; vm_compute; intuition discriminate.
  - repeat (constructor; [reflexivity|]). constructor.
Qed.

Lemma sched_reach C L l y : sched C L l (mkWorld fs0 []) = Some y -> reach C L y.
Proof. intros H. exists fs0. split; [apply fs0_empty|]. eapply sched_steps; eauto. Qed.

(* process i alone, to its end or until a certain call is next *)
Fixpoint drive (stop : call -> bool) (n i : nat) (x : world) : world :=
  match n with
  | O => x
  | S m => match nth_error (wo_procs x) i with
           | Some (j, Call c k) =>
               if stop c then x else
               let y := exec c (wo_fs x) in
               drive stop m i (mkWorld (fst y) (set_nth_p i (j, k (snd y)) (wo_procs x)))
           | _ => x
           end
  end.
Lemma drive_steps C L stop n i : forall x, steps C L x (drive stop n i x).
Proof.
  assert (G : forall m x y, steps C L x y -> steps C L x (drive stop m i y)).
  { induction m as [|m IH]; intros x y S; cbn [drive]; [auto|]. destruct (nth_error (wo_procs y) i) as [[j [?|?|c k]]|] eqn:E; auto.
    destruct (stop c); [auto|]. apply IH. apply (steps_step C L _ y); auto. apply (act1_step C L (ACall i)). cbn [act1]. rewrite E. auto. }
  intros x. apply G. constructor.
Qed.

(** * Plans *)

Inductive plan := PA (a : act) | PRun (i : nat) (stop : call -> bool).
Definition never : call -> bool := fun _ => false.

Section Plans.
Variable C : conf.
Variable L : zlib.
Variable far : nat. (* limit for PRun *)

Fixpoint go (l : list plan) (x : world) : option world :=
  match l with
  | [] => Some x
  | PA a :: r => match act1 C L a x with Some y => go r y | None => None end
  | PRun i stop :: r => go r (drive stop far i x)
  end.

Lemma steps_app x y z : steps C L x y -> steps C L y z -> steps C L x z.
Proof. intros A B. induction B as [|a b c B IH S]; [auto|]. apply (steps_step C L _ b); auto. Qed.

Lemma go_steps l : forall x y, go l x = Some y -> steps C L x y.
Proof.
  induction l as [|[a|i st] l IH]; intros x y H; cbn [go] in H.
  - injection H as <-. constructor.
  - destruct (act1 C L a x) as [z|] eqn:E; [|discriminate]. apply (steps_app _ z); [|auto]. apply (steps_step C L _ x); [constructor|]. eapply act1_step; eauto.
  - apply (steps_app _ (drive st far i x)); [apply drive_steps|auto].
Qed.

Definition jobs (l : list plan) : list job := flat_map (fun p => match p with PA (AStart j) => [j] | _ => [] end) l.

Lemma set_nth_jobs {A} (l : list (job * A)) : forall i j a b, nth_error l i = Some (j, a) -> map fst (set_nth_p i (j, b) l) = map fst l.
Proof.
  induction l as [|[j0 a0] l IH]; intros [|i] j a b H; cbn [nth_error set_nth_p map fst] in *; try discriminate.
  - injection H as -> ->. auto.
  - f_equal. eapply IH; eauto.
Qed.

Lemma drive_jobs stop n i : forall x, map fst (wo_procs (drive stop n i x)) = map fst (wo_procs x).
Proof.
  induction n as [|n IH]; intros x; cbn [drive]; [auto|]. destruct (nth_error (wo_procs x) i) as [[j [?|?|c k]]|] eqn:E; auto.
  destruct (stop c); [auto|]. rewrite IH. cbn [wo_procs]. eapply set_nth_jobs; eauto.
Qed.

Lemma act1_jobs a x y : act1 C L a x = Some y -> map fst (wo_procs y) = map fst (wo_procs x) ++ jobs [PA a].
Proof.
  destruct a as [i|i|i n|j|d|n]; cbn [act1 jobs flat_map].
  - destruct (nth_error (wo_procs x) i) as [[j [?|?|c k]]|] eqn:E; try discriminate. intros H. injection H as <-. rewrite app_nil_r. eapply set_nth_jobs; eauto.
  - destruct (nth_error (wo_procs x) i) as [[j [?|?|c k]]|] eqn:E; try discriminate. intros H. injection H as <-. rewrite app_nil_r. eapply set_nth_jobs; eauto.
  - destruct (nth_error (wo_procs x) i) as [[j [?|?|c k]]|] eqn:E; try discriminate. destruct (cut n c (wo_fs x)); try discriminate. intros H. injection H as <-.
    rewrite app_nil_r. eapply set_nth_jobs; eauto.
  - destruct (job_okb j); try discriminate. intros H. injection H as <-. cbn [wo_procs]. rewrite map_app. reflexivity.
  - destruct (_ && _); try discriminate. intros H. injection H as <-. rewrite app_nil_r. reflexivity.
  - destruct (f_hold (wo_fs x) n); try discriminate. destruct (f_silo (wo_fs x) n) as [[b w]|]; try discriminate. intros H. injection H as <-. rewrite app_nil_r. reflexivity.
Qed.

Lemma go_jobs l : forall x y, go l x = Some y -> map fst (wo_procs y) = map fst (wo_procs x) ++ jobs l.
Proof.
  induction l as [|[a|i st] l IH]; intros x y H; cbn [go] in H.
  - injection H as <-. cbn [jobs flat_map]. rewrite app_nil_r. auto.
  - destruct (act1 C L a x) as [z|] eqn:E; [|discriminate]. rewrite (IH _ _ H), (act1_jobs _ _ _ E), <- app_assoc. f_equal.
    unfold jobs. cbn [flat_map]. rewrite app_nil_r. reflexivity.
  - rewrite (IH _ _ H), drive_jobs. reflexivity.
Qed.
End Plans.

(* how process i ended *)
Definition outcome (i : nat) (x : world) : option (option bytes + death) :=
  match nth_error (wo_procs x) i with
  | Some (_, Ret a) => Some (inl a)
  | Some (_, Die d) => Some (inr d)
  | _ => None
  end.

Definition w0 : world := mkWorld fs0 [].

(* A run of the plan from nothing, and what can be seen at its end. *)
Lemma go_obs C L far l (obs : world -> bool) :
  match go C L far l w0 with Some y => obs y | None => false end = true ->
  exists y, reach C L y /\ obs y = true /\ map fst (wo_procs y) = jobs l.
Proof.
  destruct (go C L far l w0) as [y|] eqn:E; [|discriminate]. intros H. exists y. split; [exists fs0; split; [apply fs0_empty|eapply go_steps; eauto]|].
  split; [auto|]. apply go_jobs in E. exact E.
Qed.

Lemma outcome_ret x i j a : outcome i x = Some (inl a) -> nth_error (map fst (wo_procs x)) i = Some j -> In (j, Ret a) (wo_procs x).
Proof.
  unfold outcome. rewrite nth_error_map. destruct (nth_error (wo_procs x) i) as [[j' [a'|d|c k]]|] eqn:E; try discriminate.
  intros H J. injection H as ->. injection J as ->. apply nth_error_In in E. exact E.
Qed.
Lemma outcome_die x i j d : outcome i x = Some (inr d) -> nth_error (map fst (wo_procs x)) i = Some j -> In (j, Die d) (wo_procs x).
Proof.
  unfold outcome. rewrite nth_error_map. destruct (nth_error (wo_procs x) i) as [[j' [a'|d'|c k]]|] eqn:E; try discriminate.
  intros H J. injection H as ->. injection J as ->. apply nth_error_In in E. exact E.
Qed.
