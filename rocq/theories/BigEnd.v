(* The results about stores of any size which run alone in the form PBig states them
   in. *)
From Coq Require Import String Permutation.
From Coq Require Import ZifyBool ZifyNat ZifyN.
From Verif Require Import Base RoomSpec BaseLemmas ListLemmas IndexModel IndexSpec HeaderModel HeaderSpec HeaderProofs
  InflateSpec InflateProofs GzipModel GzipSpec GzipProofs ProgModel StoreModel StoreSpec StoreSysModel StoreWp StoreCalls StoreSys StoreHdr
  StoreWrite StoreCommit StoreJob StoreMain StoreGet StoreWorld StoreAgain StoreOrigin LiveSpec LiveMain LiveJob LiveEnd BigSpec BigMain BigJob
  StoreToy StoreWit StoreRuns StoreEnd LiveToy BigToy LiveRuns.
Open Scope string_scope.
Open Scope list_scope.
Open Scope N_scope.

Section End_.
Variable C : conf.
Variable L : zlib.
Hypothesis CO : conf_ok C.
Hypothesis ZO : zlib_ok L.
Notation prefix := (c_prefix C).
Hypothesis ZL : zlib_live L.
Hypothesis ZS : zlib_steer L.
Variable x : world.
Hypothesis RX : reach C L x.
Hypothesis AD : forall j p, In (j, p) (wo_procs x) -> exists a, p = Ret a.
Variables (r : request) (id : bytes).
Hypothesis RO : request_ok r.
Hypothesis NI : r_ident r = None.
Hypothesis ND : r_data r <> [].
Hypothesis FI : fits_any C.
Hypothesis LEFT : numbers_left C (wo_fs x) r.
Hypothesis RD : rounds_any C r.
Hypothesis SL : size_left C L r.
Hypothesis RID : req_id C (z_sha L) r id.
Hypothesis REF : r_meta r = true -> apart C (wo_fs x) /\
  (List.length (f_idx (wo_fs x)) <= c_fuel C)%nat /\ N.of_nat (List.length (f_idx (wo_fs x))) < 2 ^ 31 - 1 /\
  exists r0 b0 nid, In (JStore r0, Ret (Some b0)) (wo_procs x) /\ good_id prefix (c_idsize C) (full_ref C r) nid /\ lower (prefix ++ nid) = lower b0.

Lemma big_runs o : gives C (wo_fs x) id o -> exists s', run (main_store C L r) (wo_fs x) = (s', inl (prefix ++ id)) /\ at_rest s' /\
  (o = None -> exists p, stored_as C L s' (req_type r) id (List.concat (r_data r)) p).
Proof.
  intros GV. pose proof (all_done C L CO ZO x RX AD) as Q. destruct (reach_inv C L CO ZO x RX) as (AO & DT).
  destruct (zl_stored L ZL) as (kz & KZ).
  assert (RF : r_meta r = true -> exists gs, gives C (wo_fs x) (full_ref C r) (Some gs)).
  { intros M. destruct (REF M) as (AP & FU & KB & r0 & b0 & nid & H1 & H2 & H3). eapply said_gives; eauto. }
  destruct SL as (SL1 & SL2). pose (PS := fun d : bytes => len d < 10 * c_max C).
  assert (RFIT : forall n, n < 2 ^ 32 -> 2 * len (warcinfo_body C (c_base C n)) + 8000 + 4000 <= c_max C) by (intros n Hn; specialize (FI n Hn); lia).
  assert (SZ : forall R z a d b o fl, steered L R z d o fl -> 4000 <= R <= c_max C -> List.concat (r_data r) = a ++ d ++ b -> PS d).
  { intros R z a d b o1 fl H1 (H0 & H2) H3. eapply SL2; eauto. }
  destruct (live_big C L CO ZO ZL ZS (wo_fs x) AO DT Q r RO NI ND FI LEFT RD SL1 PS 4000 (N.le_refl _) RFIT SZ id RID kz KZ (fun d H => H) RF o GV) as (a & s' & E & -> & NX).
  exists s'. split; [exact E|]. split.
  - pose proof (main_store_ok C L CO ZO (fun _ => True) Logic.I Logic.I Logic.I Logic.I (wo_fs x) r RO) as W.
    apply (wp_run _ _ _ (f_hold (wo_fs x))) in W; [|split; auto|intros n []|auto]. rewrite E in W.
    destruct W as (_ & own & (-> & _) & _ & H). intros n. rewrite H; auto.
  - intros EN. pose proof (NX EN) as NX'. clear NX. destruct (run_tr _ [] _ _ _ E) as (l' & ET & EI). cbn [app] in ET.
    pose proof (main_store_tr C L CO ZO (fun _ => True) Logic.I Logic.I Logic.I Logic.I (wo_fs x) r RO) as W.
    apply (wp_run _ _ _ (f_hold (wo_fs x))) in W; [|split; auto|intros n []|auto]. rewrite ET in W.
    destruct W as (_ & own & (_ & _ & [X|(id1 & p & rest & X1 & _ & _ & X2 & _)]) & _); cbn [fst snd] in *.
    + subst l'. rewrite app_nil_r in EI. congruence.
    + apply app_inv_head in X1. subst id1. eauto.
Qed.

Lemma big_new_end : unknown C L (wo_fs x) id -> exists s', run (main_store C L r) (wo_fs x) = (s', inl (prefix ++ id)) /\ at_rest s' /\
  exists p, stored_as C L s' (req_type r) id (List.concat (r_data r)) p.
Proof.
  intros UN. pose proof (all_done C L CO ZO x RX AD) as Q. destruct (reach_inv C L CO ZO x RX) as (AO & DT).
  destruct (req_hex C L CO ZO r id NI RID) as (HX & LX).
  destruct (big_runs None) as (s' & E & R & H); [|exists s'; split; [auto|]; split; [auto|]; apply H; auto]. apply (unknown_gives C L CO); auto. unfold rounds_any in RD. lia.
Qed.

Lemma big_again_end r0 b0 : apart C (wo_fs x) ->
  (List.length (f_idx (wo_fs x)) <= c_fuel C)%nat -> N.of_nat (List.length (f_idx (wo_fs x))) < 2 ^ 31 - 1 ->
  In (JStore r0, Ret (Some b0)) (wo_procs x) -> lower (prefix ++ id) = lower b0 ->
  exists s', run (main_store C L r) (wo_fs x) = (s', inl (prefix ++ id)) /\
    f_silo s' = f_silo (wo_fs x) /\ f_idx s' = f_idx (wo_fs x) /\ at_rest s'.
Proof.
  intros AP FU KB HI LB. destruct (req_hex C L CO ZO r id NI RID) as (HX & LX).
  destruct (said_gives C L CO ZO x RX AD r REF r0 b0 id id AP FU KB HI) as (gs & GV); [split; auto|auto|].
  destruct (big_runs (Some gs) GV) as (s' & E & R & _). exists s'. split; [auto|].
  pose proof (end_again C L CO ZO x r0 b0 RX AD AP HI FU KB r id RO RID LB) as X. rewrite E in X. tauto.
Qed.
End End_.

(* An object which is more than ten times as big as a silo, and the model with enough rounds *)
Definition KB : conf := let K := KL in mkConf (c_prefix K) (c_idsize K) (c_max K) (c_base K) (c_wbody K) (c_gitrev K) (N.to_nat 20000).
Definition huge : request := mkReq false (str "text/plain") [] None [repeat 65 (N.to_nat 200000); repeat 66 (N.to_nat 100000)].

Lemma KB_ok : conf_ok KB.
Proof. destruct KL_ok. constructor; assumption. Qed.

Lemma fits_KL : fits_any KL.
Proof.
  intros n Hn. pose proof (fits_small (mkReq false [] [] None []) ltac:(vm_compute; discriminate) n Hn) as F. cbn [r_data List.concat] in F. change (len []) with 0 in F. lia.
Qed.
Lemma fits_KB : fits_any KB.
Proof. exact fits_KL. Qed.

Lemma huge_len : len (List.concat (r_data huge)) = 300000.
Proof. unfold huge. cbn [r_data List.concat]. rewrite !len_app. unfold len. rewrite !repeat_length. cbn [List.length]. lia. Qed.

Lemma huge_ok : request_ok huge.
Proof.
  assert (R : forall c n, 0 < n -> c < 256 -> repeat c (N.to_nat n) <> [] /\ is_bytes (repeat c (N.to_nat n))).
  { intros c n N0 B. split; [destruct (N.to_nat n) eqn:E; [lia|discriminate]|]. apply Forall_forall. intros y Hy. apply repeat_spec in Hy. lia. }
  constructor; [|constructor; [apply R; reflexivity|constructor; [apply R; reflexivity|constructor]]|rewrite huge_len; reflexivity].
  destruct (goodb_val (str "text/plain") eq_refl). split; [auto|]. split; [auto|vm_compute; discriminate].
Qed.

Lemma huge_left : size_left KB toy3 huge.
Proof.
  split; [rewrite huge_len; reflexivity|]. intros R z a d b o fl R4 RM S E. pose proof (proj1 (steer3 _ _ _ _ _ R4 S)) as (_ & I3).
  assert (NI : ~ In 0 d).
  { intros X. assert (Y : In 0 (List.concat (r_data huge))) by (rewrite E, !in_app_iff; auto). unfold huge in Y. cbn [r_data List.concat] in Y.
    rewrite !in_app_iff in Y. destruct Y as [Y|[Y|[]]]; apply repeat_spec in Y; discriminate Y. }
  pose proof (steer3_len _ _ _ _ _ R4 S NI) as LD. change (c_max KB) with 20000 in *.
  destruct I3 as [(_ & ->)|(_ & I3)]; [change (len []) with 0 in LD|]; lia.
Qed.

Lemma huge_case : exists x id, reach KB toy3 x /\ (forall j p, In (j, p) (wo_procs x) -> exists a, p = Ret a) /\
  request_ok huge /\ r_ident huge = None /\ r_data huge <> [] /\ fits_any KB /\ numbers_left KB (wo_fs x) huge /\ rounds_any KB huge /\
  size_left KB toy3 huge /\ req_id KB (z_sha toy3) huge id /\ unknown KB toy3 (wo_fs x) id /\ r_meta huge = false /\
  10 * c_max KB < len (List.concat (r_data huge)).
Proof.
  exists (mkWorld fs0 []). eexists. split; [exists fs0; split; [apply fs0_empty|constructor]|]. split; [intros j p []|]. split; [apply huge_ok|].
  split; [reflexivity|]. split; [discriminate|]. split; [apply fits_KB|]. split.
  { exists 0, 1001. rewrite huge_len. split; [vm_compute; discriminate|]. split; [change (c_fuel KB) with (N.to_nat 20000); lia|]. split; [reflexivity|]. split; [reflexivity|]. reflexivity. }
  split; [unfold rounds_any; rewrite huge_len; change (c_fuel KB) with (N.to_nat 20000); lia|]. split; [exact huge_left|].
  split; [reflexivity|]. split; [|split; [reflexivity|rewrite huge_len; reflexivity]].
  apply no_key. reflexivity.
Qed.

Lemma again_case : exists x, reach KL toy3 x /\ (forall j p, In (j, p) (wo_procs x) -> exists a, p = Ret a) /\
  request_ok hello /\ r_ident hello = None /\ r_data hello <> [] /\ fits_any KL /\ numbers_left KL (wo_fs x) hello /\ rounds_any KL hello /\
  size_left KL toy3 hello /\ req_id KL (z_sha toy3) hello hello_dig /\ r_meta hello = false /\ apart KL (wo_fs x) /\
  List.length (f_idx (wo_fs x)) = 2%nat /\ In (JStore hello, Ret (Some hello_id)) (wo_procs x) /\ c_prefix KL ++ hello_dig = hello_id.
Proof.
  destruct twice_case as (x & H1 & H2 & H3 & H4 & H5 & H6 & (m & M1 & M2 & M3) & H8 & H9). exists x. split; [auto|]. split; [auto|]. split; [auto|]. split; [auto|]. split; [auto|].
  split; [apply fits_KL|]. split.
  { exists m, 1. split; [lia|]. split; [lia|]. split; [reflexivity|]. split; [|reflexivity]. intros i Hi. replace (m + i) with m by lia. auto. }
  split; [vm_compute; discriminate|]. split; [|exact H9]. split; [reflexivity|]. intros R z a d b o fl _ _ _ E. apply (f_equal len) in E. rewrite !len_app in E.
  replace (len (List.concat (r_data hello))) with 12 in E by reflexivity. change (c_max KL) with 20000. lia.
Qed.
