(* The results about stores which run alone in the form PLive states them in. *)
From Coq Require Import String Permutation.
From Coq Require Import ZifyBool ZifyNat ZifyN.
From Verif Require Import Base RoomSpec BaseLemmas ListLemmas IndexModel IndexSpec HeaderModel HeaderSpec HeaderProofs
  InflateSpec InflateProofs GzipModel GzipSpec GzipProofs ProgModel StoreModel StoreSpec StoreSysModel StoreWp StoreCalls StoreSys StoreHdr
  StoreWrite StoreCommit StoreJob StoreMain StoreGet StoreWorld StoreAgain StoreOrigin LiveSpec LiveMain LiveJob.
Open Scope string_scope.
Open Scope list_scope.
Open Scope N_scope.

(* the entries inserted are those which the index has more *)
Lemma run_tr {A} (p : prog A) : forall l s s' a, run p s = (s', inl a) ->
  exists l', run (tr l p) s = (s', inl (a, l ++ l')) /\ f_idx s' = f_idx s ++ l'.
Proof.
  induction p as [x|d|c k IH]; intros l s s' a E; cbn [run tr] in *.
  - injection E as <- <-. exists []. rewrite !app_nil_r. auto.
  - discriminate.
  - destruct (exec c s) as [s1 x] eqn:EX. destruct (IH x (l ++ ins_of c) s1 s' a E) as (l' & E1 & E2).
    exists (ins_of c ++ l'). rewrite app_assoc. split; [exact E1|]. rewrite E2, app_assoc. f_equal.
    assert (s1 = fst (exec c s)) as -> by (rewrite EX; auto). clear. destruct c; cbn [exec fst ins_of]; rewrite ?app_nil_r; auto.
    + destruct (f_hold s n); auto.
    + destruct (f_silo s n); auto.
    + destruct (f_silo s n) as [[b w]|]; auto.
Qed.

Section End_.
Variable C : conf.
Variable L : zlib.
Hypothesis CO : conf_ok C.
Hypothesis ZO : zlib_ok L.
Notation prefix := (c_prefix C).

Lemma stored_gives s t id d ps arg nid : (t = str "resource" \/ t = str "metadata") -> stored_as C L s t id d ps -> clear C L s id ps ->
  good_id prefix (c_idsize C) arg nid -> lower nid = lower id -> N.of_nat (List.length ps) < 2 ^ 31 - 1 -> (List.length ps <= c_fuel C)%nat ->
  exists gs, gives C s arg (Some gs).
Proof.
  intros TY ST CL GI LI KB FU. assert (V : IDX_Valid_Id prefix (c_idsize C) arg = IdOk nid) by (apply valid_iff; auto).
  assert (LD : len id = c_idsize C) by (destruct GI as (_ & <- & _); symmetry; apply lower_len; auto).
  assert (X := walk C L CO (fun s1 => s1 = s) nid id LI LD d t TY ps s (c_fuel C) ST). specialize (X ltac:(intros s1 ->; auto) KB FU).
  apply (wp_run _ _ _ (f_hold s)) in X; [|auto|intros n []|auto]. unfold gives, GetJob_New. rewrite V.
  destruct (run (getjob_loop C (c_fuel C) nid [] nid) s) as [s' r]. destruct X as (-> & X). destruct r as [a|dd]; [|contradiction].
  destruct X as (own' & (_ & _ & gs & -> & _) & _). eauto.
Qed.

Lemma unknown_gives s id : archive_ok C L s -> date_ok (f_clock s) -> at_rest s -> unknown C L s id -> (0 < c_fuel C)%nat ->
  hexstr id -> len id = c_idsize C -> gives C s id None.
Proof.
  intros AO DT QU UN FU HX LX. assert (V : IDX_Valid_Id prefix (c_idsize C) id = IdOk id).
  { apply valid_iff; auto. split; [auto|]. split; auto. }
  unfold gives, GetJob_New. rewrite V. destruct (c_fuel C) as [|fu]; [lia|]. cbn [getjob_loop]. unfold sys at 1. cbn [bindp run exec].
  assert (IL : forall es, (forall e, In e es -> In e (f_idx s)) -> run (iter_loop C id [] es) s = (s, inl ItNext)).
  { induction es as [|e es IH]; intros HI; cbn [iter_loop]; [auto|]. rewrite run_bind.
    destruct (entry_settled C L s e (conj AO DT)) as (w & IA); [apply HI; left; auto|apply QU|].
    destruct (at_entry C L CO _ _ _ _ _ IA) as (b & a & H & B & z & wr & A1 & A2 & A3 & A4 & A5).
    assert (E : run (getjob_iter C id [] e) s = (s, inl ItNext)).
    { unfold getjob_iter, sys. cbn [bindp run exec]. rewrite A1. cbn [bindp]. rewrite A5. cbn [lift bindp]. unfold Header_Get_Id.
      replace (caseeq (h_id (wr_hdr w)) id) with false by (symmetry; apply caseeq_lower_f; eapply UN; eauto). rewrite andb_false_r. reflexivity. }
    rewrite E. apply IH. intros e' He. apply HI. right. auto. }
  rewrite run_bind. rewrite IL; [reflexivity|]. intros e He. apply filter_In in He. tauto.
Qed.

Lemma req_hex r id : r_ident r = None -> req_id C (z_sha L) r id -> hexstr id /\ len id = c_idsize C.
Proof.
  intros NI RID. pose proof (co_idsize C CO) as CI. assert (K : exists y, id = firstn (N.to_nat (c_idsize C)) (z_sha L y)).
  { unfold req_id in RID. cbv zeta in RID. rewrite NI in RID. destruct (r_meta r); eauto. }
  destruct K as (y & ->). split; [apply forall_firstn; apply sha_hex; auto|]. apply ident_len; auto. apply (len_sha L ZO).
Qed.

Hypothesis ZL : zlib_live L.
Variable x : world.
Hypothesis RX : reach C L x.
Hypothesis AD : forall j p, In (j, p) (wo_procs x) -> exists a, p = Ret a.
Variables (r : request) (id : bytes).
Hypothesis RO : request_ok r.
Hypothesis NI : r_ident r = None.
Hypothesis ND : r_data r <> [].
Hypothesis FI : fits C r.
Hypothesis LEFT : number_left C (wo_fs x).
Hypothesis RD : rounds C r.
Hypothesis RID : req_id C (z_sha L) r id.
Hypothesis REF : r_meta r = true -> apart C (wo_fs x) /\
  (List.length (f_idx (wo_fs x)) <= c_fuel C)%nat /\ N.of_nat (List.length (f_idx (wo_fs x))) < 2 ^ 31 - 1 /\
  exists r0 b0 nid, In (JStore r0, Ret (Some b0)) (wo_procs x) /\ good_id prefix (c_idsize C) (full_ref C r) nid /\ lower (prefix ++ nid) = lower b0.

Lemma said_gives r0 b0 arg nid : apart C (wo_fs x) ->
  (List.length (f_idx (wo_fs x)) <= c_fuel C)%nat -> N.of_nat (List.length (f_idx (wo_fs x))) < 2 ^ 31 - 1 ->
  In (JStore r0, Ret (Some b0)) (wo_procs x) -> good_id prefix (c_idsize C) arg nid -> lower (prefix ++ nid) = lower b0 ->
  exists gs, gives C (wo_fs x) arg (Some gs).
Proof.
  intros AP FU KB HI GI LB. destruct (stored_end C L CO ZO x r0 b0 RX AD AP HI) as (r' & id1 & id' & ps & -> & LI & _ & _ & HI' & LE & LI' & ST & CL & BD & _).
  rewrite !lower_app in LB. apply app_inv_head in LB.
  eapply (stored_gives (wo_fs x) (req_type r') id' _ ps arg nid); eauto; [apply req_type_cases|congruence|lia|lia].
Qed.

Lemma runs o : gives C (wo_fs x) id o -> exists s', run (main_store C L r) (wo_fs x) = (s', inl (prefix ++ id)) /\ at_rest s' /\
  (o = None -> (exists p, stored_as C L s' (req_type r) id (List.concat (r_data r)) p) /\ tight C (wo_fs x) s' id).
Proof.
  intros GV. pose proof (all_done C L CO ZO x RX AD) as Q. destruct (reach_inv C L CO ZO x RX) as (AO & DT).
  destruct (zl_stored L ZL) as (kz & KZ).
  assert (RF : r_meta r = true -> exists gs, gives C (wo_fs x) (full_ref C r) (Some gs)).
  { intros M. destruct (REF M) as (AP & FU & KB & r0 & b0 & nid & H1 & H2 & H3). eapply said_gives; eauto. }
  destruct (live C L CO ZO ZL (wo_fs x) AO DT Q r RO NI ND FI LEFT RD id RID kz KZ RF o GV) as (a & s' & E & -> & NX).
  exists s'. split; [exact E|]. split.
  - pose proof (main_store_ok C L CO ZO (fun _ => True) Logic.I Logic.I Logic.I Logic.I (wo_fs x) r RO) as W.
    apply (wp_run _ _ _ (f_hold (wo_fs x))) in W; [|split; auto|intros n []|auto]. rewrite E in W.
    destruct W as (_ & own & (-> & _) & _ & H). intros n. rewrite H; auto.
  - intros EN. destruct (NX EN) as (NX' & TI). clear NX. split; [|exact TI]. destruct (run_tr _ [] _ _ _ E) as (l' & ET & EI). cbn [app] in ET.
    pose proof (main_store_tr C L CO ZO (fun _ => True) Logic.I Logic.I Logic.I Logic.I (wo_fs x) r RO) as W.
    apply (wp_run _ _ _ (f_hold (wo_fs x))) in W; [|split; auto|intros n []|auto]. rewrite ET in W.
    destruct W as (_ & own & (_ & _ & [X|(id1 & p & rest & X1 & _ & _ & X2 & _)]) & _); cbn [fst snd] in *.
    + subst l'. rewrite app_nil_r in EI. congruence.
    + apply app_inv_head in X1. subst id1. eauto.
Qed.

Lemma new_end : unknown C L (wo_fs x) id -> exists s', run (main_store C L r) (wo_fs x) = (s', inl (prefix ++ id)) /\ at_rest s' /\
  exists p, stored_as C L s' (req_type r) id (List.concat (r_data r)) p.
Proof.
  intros UN. pose proof (all_done C L CO ZO x RX AD) as Q. destruct (reach_inv C L CO ZO x RX) as (AO & DT).
  destruct (req_hex r id NI RID) as (HX & LX).
  destruct (runs None) as (s' & E & R & H); [|exists s'; split; [auto|]; split; [auto|]; apply H; auto]. apply unknown_gives; auto. unfold rounds in RD. lia.
Qed.

Lemma room_end s' a : unknown C L (wo_fs x) id -> run (main_store C L r) (wo_fs x) = (s', inl a) -> tight C (wo_fs x) s' id.
Proof.
  intros UN E. pose proof (all_done C L CO ZO x RX AD) as Q. destruct (reach_inv C L CO ZO x RX) as (AO & DT).
  destruct (req_hex r id NI RID) as (HX & LX).
  destruct (runs None) as (s2 & E2 & _ & H); [|rewrite E in E2; injection E2 as <- _; apply H; auto]. apply unknown_gives; auto. unfold rounds in RD. lia.
Qed.

Lemma again_end r0 b0 : apart C (wo_fs x) ->
  (List.length (f_idx (wo_fs x)) <= c_fuel C)%nat -> N.of_nat (List.length (f_idx (wo_fs x))) < 2 ^ 31 - 1 ->
  In (JStore r0, Ret (Some b0)) (wo_procs x) -> lower (prefix ++ id) = lower b0 ->
  exists s', run (main_store C L r) (wo_fs x) = (s', inl (prefix ++ id)) /\
    f_silo s' = f_silo (wo_fs x) /\ f_idx s' = f_idx (wo_fs x) /\ at_rest s'.
Proof.
  intros AP FU KB HI LB. destruct (req_hex r id NI RID) as (HX & LX).
  destruct (said_gives r0 b0 id id AP FU KB HI) as (gs & GV); [split; auto|auto|].
  destruct (runs (Some gs) GV) as (s' & E & R & _). exists s'. split; [auto|].
  pose proof (end_again C L CO ZO x r0 b0 RX AD AP HI FU KB r id RO RID LB) as X. rewrite E in X. tauto.
Qed.
End End_.
