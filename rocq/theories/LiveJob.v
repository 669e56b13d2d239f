(* The whole store command, alone. *)
From Coq Require Import String Permutation.
From Coq Require Import ZifyBool ZifyNat ZifyN.
From Verif Require Import Base RoomSpec BaseLemmas ListLemmas IndexModel IndexSpec HeaderModel HeaderSpec HeaderProofs
  InflateSpec InflateProofs GzipModel GzipSpec GzipProofs ProgModel StoreModel StoreSpec StoreSysModel StoreWp StoreCalls StoreSys StoreHdr
  StoreWrite StoreCommit StoreJob StoreMain StoreGet StoreWorld StoreAgain LiveSpec LiveMain.
Open Scope string_scope.
Open Scope list_scope.
Open Scope N_scope.

(** * Looking objects up *)

Definition looks_up (c : call) : Prop := match c with CReadSilo _ | CIdxIter _ => True | _ => False end.

Lemma lookup_iter C id segs es : allcalls looks_up (iter_loop C id segs es).
Proof. induction es as [|e r IH]; cbn [iter_loop]; [exact I|]. unfold getjob_iter. ac. Qed.
Lemma lookup_loop C id : forall fuel segs nid, allcalls looks_up (getjob_loop C fuel id segs nid).
Proof.
  induction fuel as [|fu IH]; intros; cbn [getjob_loop]; [exact I|]. apply ac_bind; [apply ac_sys; exact I|]. intros es.
  apply ac_bind; [apply lookup_iter|]. ac.
Qed.
Lemma lookup_new C id : allcalls looks_up (GetJob_New C id).
Proof. unfold GetJob_New. destruct (IDX_Valid_Id _ _ _); try exact I. apply lookup_loop. Qed.

Lemma lookup_same {A} (p : prog A) s s' : allcalls looks_up p -> f_silo s' = f_silo s -> f_idx s' = f_idx s ->
  run p s' = (s', snd (run p s)).
Proof.
  intros H E1 E2. induction p as [a|d|c k IH]; cbn [run allcalls snd] in *; auto. destruct H as (H1 & H2).
  destruct c; cbn in H1; try contradiction; cbn [exec]; rewrite ?E1, ?E2; apply IH; apply H2.
Qed.

Section Job.
Variable C : conf.
Variable L : zlib.
Hypothesis CO : conf_ok C.
Hypothesis ZO : zlib_ok L.
Hypothesis ZL : zlib_live L.
Notation prefix := (c_prefix C).
Variable s0 : fs.
Hypothesis AO : archive_ok C L s0.
Hypothesis DT : date_ok (f_clock s0).
Hypothesis QU : at_rest s0.
Variable r : request.
Hypothesis RO : request_ok r.
Hypothesis NI : r_ident r = None.
Hypothesis ND : r_data r <> [].
Hypothesis FI : fits C r.
Hypothesis LEFT : number_left C s0.
Hypothesis RD : rounds C r.
Variable id : bytes.
Hypothesis RID : req_id C (z_sha L) r id.

Notation D := (len (List.concat (r_data r))).
Definition refo : option bytes := if r_meta r then Some (str "<" ++ full_ref C r ++ str ">") else None.

Lemma ty : req_type r = str "resource" \/ req_type r = str "metadata" /\ exists ref, refo = Some ref.
Proof. unfold req_type, refo. destruct (r_meta r); eauto. Qed.

Definition gives (k : bytes) (o : option (list getjobseg)) : Prop := run (GetJob_New C k) s0 = (s0, inl o).
Lemma gives_still k o s : gives k o -> still s0 s -> alive (GetJob_New C k) s (fun x s' => x = o /\ s' = s).
Proof.
  intros H (S1 & S2 & _). exists o, s. split; [|auto]. unfold gives in H. rewrite (lookup_same _ s0 s) by (auto; apply lookup_new). rewrite H. auto.
Qed.

Variable kz : N.
Hypothesis KZ : forall t, is_bytes t -> 0 < len t <= 4096 -> len (z_gzip L 0 t) = len t + kz.
Notation none := (fun _ : N => @None bytes).
Notation going := (LiveMain.going C L s0 none (req_type r) refo kz).

Lemma feed_all_live ds : forall s aa sj tk, going s sj tk -> Forall (fun d => d <> [] /\ is_bytes d) ds -> len tk + len (List.concat ds) <= D ->
  alive (feed_all C L aa sj ds) s (fun x s' => fst x = aa /\ going s' (snd x) (tk ++ List.concat ds)).
Proof.
  induction ds as [|d ds IH]; intros s aa sj tk G FA LD; cbn [feed_all List.concat] in *.
  - apply al_ret. cbn [fst snd]. rewrite app_nil_r. auto.
  - inversion FA as [|? ? (N0 & _) FA']; subst. rewrite len_app in LD. unfold SegJob_Feed.
    eapply al_bind; [eapply (feed_live C L ZO ZL s0 none D FI (req_type r) refo ty kz KZ); eauto; [lia|]|].
    + unfold rounds in RD. lia.
    + cbn beta. intros (aa1 & sj1) s1 (EA & G1). cbn [fst snd] in *. subst aa1. eapply al_weak; [eapply IH; eauto; rewrite len_app; lia|].
      cbn beta. intros x s2 H. rewrite app_assoc. auto.
Qed.

Lemma good_d2i nid : Forall (fun c => is_hex c = true) nid -> len nid = c_idsize C ->
  Digest2Ident prefix (c_idsize C) nid = Ok (prefix ++ nid).
Proof.
  intros H1 H2. unfold Digest2Ident. assert (V : IDX_Valid_Id prefix (c_idsize C) (prefix ++ nid) = IdOk nid).
  { apply valid_iff; auto. split; [auto|]. split; [auto|]. right. exists prefix. auto. }
  rewrite V. auto.
Qed.

Lemma commit_live s aa sj o : gives id o -> cache_ok C s0 aa -> going s sj (List.concat (r_data r)) -> 
  alive (SegJob_Commit C L aa sj) s (fun x s' => x = prefix ++ id /\ (o = None -> f_idx s' <> f_idx s0 /\ tight C s0 s' id)).
Proof.
  intros GV CA GO. unfold SegJob_Commit, segjob_ident, SegJob_Feed.
  assert (FU : (0 < c_fuel C)%nat) by (unfold rounds in RD; lia).
  assert (D0 : 0 < D).
  { destruct RO as [_ FA _]. destruct (r_data r) as [|d ds]; [congruence|]. inversion FA as [|? ? (N0 & _) _]; subst.
    cbn [List.concat]. rewrite len_app. destruct d; [congruence|]. rewrite len_cons. lia. }
  eapply al_bind with (Q := fun x s' => exists aa' sj' sg hb i idx len0 st wid, x = (aa', sj', sg, []) /\ aa' = aa /\ sj_nseg L sj' = 1 /\
     hgood (sg_hdr sg) /\ h_id (sg_hdr sg) = id /\ hget (sg_hdr sg) "z" = None /\ hlen prefix (sg_hdr sg) + i <= 3000 /\ 5 <= i /\
     held s0 none s' (w_no (sg_silo sg)) hb /\ f_silo s0 (w_no (sg_silo sg)) = None /\
     sg_silo sg = mkW (w_no (sg_silo sg)) idx len0 st (hlen prefix (sg_hdr sg) + kz + i) false wid /\
     len hb = len0 /\ st + (hlen prefix (sg_hdr sg) + kz + i) <= len0).
  - eapply al_bind; [eapply (feed_end C L CO ZO ZL s0 none D FI (req_type r) refo ty kz KZ); eauto; lia|].
    cbn beta. intros (aa1 & sj1) s1 (EA & sg & h & hb & i & idx & len0 & st & wid & H1 & H2 & H3 & H4 & H5 & H6 & H7 & (x & H8 & H8a & H8b) & H9 & H10 & H11 & H12 & H13 & H14).
    cbn [fst snd] in *. apply al_assert; [rewrite H4; lia|]. rewrite H2, H3. change (1 <? 1) with false. cbv iota. cbn [bindp]. apply al_ret.
    exists aa1, sj1, (mkS (sg_no sg) (sg_hdr sg) (sg_silo sg) (sg_size sg)), hb, i, idx, len0, st, wid. cbn [sg_hdr sg_silo]. rewrite H6.
    split; [auto|]. split; [auto|]. split; [auto|]. split; [auto|]. split; [|tauto].
    unfold req_id in RID. cbv zeta in RID. rewrite NI in RID. unfold req_type, refo in *. destruct (r_meta r).
    + destruct (H8a eq_refl) as (ref & E1 & E2). injection E1 as <-. rewrite H8, E2, RID. auto.
    + rewrite H8, H8b by discriminate. auto.
  - cbn beta. intros x s1 (aa1 & sj1 & sg & hb & i & idx & len0 & st & wid & -> & -> & H1 & H2 & H3 & H4 & H5 & H6 & H7 & H8 & H9 & H10 & H11).
    cbv zeta. unfold Header_Get_Id. rewrite H3.
    assert (HX : Forall (fun c => is_hex c = true) id /\ len id = c_idsize C).
    { pose proof (co_idsize C CO) as CI. assert (K : exists y, id = firstn (N.to_nat (c_idsize C)) (z_sha L y)).
      { unfold req_id in RID. cbv zeta in RID. rewrite NI in RID. destruct (r_meta r); eauto. }
      destruct K as (y & ->). split; [apply forall_firstn; apply sha_hex; auto|]. apply ident_len; auto. apply (len_sha L ZO). }
    destruct HX as (HX & LX). rewrite good_d2i by auto. cbn [lift bindp].
    eapply al_bind; [apply (gives_still id o); [exact GV|apply H7]|]. cbn beta. intros gj s2 (-> & ->). destruct o as [gs|].
    + cbn [segjob_destroy]. unfold wsilo_delete. eapply al_bind with (Q := fun _ _ => True); [apply al_sys; apply al_ret; auto|]. intros u s2 _. apply al_ret. split; [auto|discriminate].
    + rewrite H1. change (1 =? 1) with true. cbv iota.
      eapply al_bind; [eapply (Wsilo_Commit_live C L CO ZO ZL s0 AO QU none D FI (req_type r) kz KZ ltac:(auto) s1 aa (sg_silo sg) (sg_hdr sg)); eauto|].
      * split; rewrite H3; auto. apply (hex_id id HX).
      * cbn beta. intros a s2 X. apply al_ret. auto.
Qed.

Hypothesis RF : r_meta r = true -> exists gs, gives (full_ref C r) (Some gs).

Lemma ref_valid : r_meta r = true -> exists nid, good_id prefix (c_idsize C) (full_ref C r) nid /\ good_id prefix (c_idsize C) (r_ref r) nid.
Proof.
  intros M. destruct (RF M) as (gs & G). unfold gives, GetJob_New in G.
  destruct (IDX_Valid_Id prefix (c_idsize C) (full_ref C r)) as [nid| | | |] eqn:V; try discriminate.
  apply valid_iff in V; auto. exists nid. split; [auto|]. unfold full_ref in V. destruct (len (r_ref r) =? c_idsize C) eqn:E; [|auto].
  destruct V as (V1 & V2 & V3). assert (X : r_ref r = nid).
  { pose proof (f_equal len (eq_refl (prefix ++ r_ref r))) as EL. rewrite len_app in EL.
    destruct V3 as [V3|(p & V3 & V4)].
    - rewrite <- V3, len_app in V2. assert (len prefix = 0) by lia. destruct prefix; [auto|rewrite len_cons in *; lia].
    - apply lower_len in V3. apply app_eq_len in V4; [tauto|]. unfold len in *. lia. }
  split; [auto|]. split; [auto|]. auto.
Qed.

(* main_store up to the first byte of what is stored *)
Lemma start_live Q : (forall h, base C (req_type r) refo h -> 
    hget h "WARC-Segment-Number" = None -> hget h "WARC-Segment-Origin-ID" = None -> hget h "WARC-Payload-Digest" = None -> hget h "WARC-Segment-Total-Length" = None ->
    alive (feed_all C L (0, 0) (mkJ L h None 0 [] None [] [] 0 (z_init L) [] ZNone) (r_data r)) s0 Q) ->
  alive (store_feed C L r) s0 Q.
Proof.
  intros KK. pose proof ref_valid as RV. pose proof (co_idsize C CO) as CI. destruct (co_prefix C CO) as ((P1 & _) & P2 & P3). destruct RO as [(RM1 & RM2 & RM3) FA RS]. destruct DT as (DL & DC & DB).
  unfold store_feed. rewrite NI.
  eapply al_bind with (Q := fun x s' => s' = s0 /\ x = (if r_meta r then Some (full_ref C r) else None) /\
     (r_meta r = true -> goodval (full_ref C r) /\ len (full_ref C r) <= 564)).
  { destruct (r_meta r) eqn:M; [|apply al_ret; split; [auto|split; [auto|discriminate]]]. cbn [bindp].
    destruct (RV eq_refl) as (nid & V1 & V2). apply valid_iff in V1, V2; auto. unfold valid_id. rewrite V2. cbn [negb].
    assert (VG : goodval (full_ref C r) /\ len (full_ref C r) <= 564).
    { apply (valid_good C CO) in V1. destruct V1. split; [auto|]. lia. }
    unfold full_ref in *. destruct (len (r_ref r) =? c_idsize C) eqn:EL.
    - apply valid_iff in V2; auto. destruct V2 as (W1 & W2 & W3). assert (E : r_ref r = nid).
      { destruct W3 as [|(p & W3 & W4)]; [auto|]. rewrite W4, len_app in EL. assert (len p = 0) by lia. destruct p; [auto|rewrite len_cons in *; lia]. }
      rewrite good_d2i by (rewrite E; auto). cbn [lift bindp]. apply al_ret. auto.
    - apply al_ret. auto. }
  cbn beta. intros ref s' (-> & -> & RG). destruct (r_data r) as [|d ds] eqn:ED; [congruence|]. rewrite <- ED in *.
  apply al_sys. cbn [exec fst snd].
  assert (G0 : hgood (Header_New (c_idsize C))) by (split; constructor).
  destruct (hset_ret prefix (Header_New (c_idsize C)) "WARC-Date" (f_clock s0)) as (h1 & E1 & G1 & I1 & K1 & L1); [auto|reflexivity|split; auto|].
  rewrite E1. cbn [bindp].
  destruct (hset_ret prefix h1 "Content-Type" (r_mime r)) as (h2 & E2 & G2 & I2 & K2 & L2); [auto|reflexivity|split; auto|].
  rewrite E2. cbn [bindp].
  destruct (hset_ret prefix h2 "WARC-Type" (req_type r)) as (h3 & E3 & G3 & I3 & K3 & L3); [auto|reflexivity| |].
  { unfold req_type. destruct (r_meta r); apply goodb_val; reflexivity. }
  unfold req_type in E3. rewrite E3. cbn [bindp].
  assert (LT : len (req_type r) = 8) by (unfold req_type; destruct (r_meta r); reflexivity).
  assert (L0 : hlen prefix (Header_New (c_idsize C)) <= 596).
  { rewrite hlen_eq. cbn [Header_New h_id h_fields]. change (fsum []) with 0. unfold len at 2. rewrite repeat_length. lia. }
  unfold Header_Len in L1, L2, L3. change (len (str "WARC-Date")) with 9 in L1. change (len (str "Content-Type")) with 12 in L2. change (len (str "WARC-Type")) with 9 in L3.
  eapply al_bind with (Q := fun h s' => s' = s0 /\ hgood h /\ hlen prefix h <= 1750 /\ h_id h = h_id h3 /\
     (forall m, samename m "WARC-Refers-To" = false -> hget h m = hget h3 m) /\ hget h "WARC-Refers-To" = refo).
  { unfold refo in *. destruct (r_meta r) eqn:M.
    - destruct (RF eq_refl) as (gs & GF). destruct (RG eq_refl) as (RG1 & RG2).
      eapply al_bind; [apply (gives_still _ _ s0 GF); repeat split; auto|]. cbn beta. intros gj s1 (-> & ->).
      destruct (hset_ret prefix h3 "WARC-Refers-To" ([60] ++ full_ref C r ++ [62])) as (h4 & E4 & G4 & I4 & K4 & L4); [auto|reflexivity| |].
      { apply goodval_app; [|apply goodval_app; auto]; split; try split; try (intros [X|[]]; discriminate); repeat constructor. }
      rewrite E4. apply al_ret. split; [auto|]. split; [auto|]. split.
      { unfold Header_Len in L4. change (len (str "WARC-Refers-To")) with 14 in L4. rewrite !len_app, !len_cons, !len_nil in L4. lia. }
      split; [auto|]. split; [intros m Hm; rewrite K4, Hm; auto|]. rewrite K4. names. auto.
    - apply al_ret. split; [auto|]. split; [auto|]. split; [lia|]. split; [auto|]. split; [auto|]. rewrite K3. names. rewrite K2. names. rewrite K1. names. reflexivity. }
  cbn beta. intros h s1 (-> & G4 & L4 & I4 & K4 & R4).
  assert (HN : forall m, samename m "WARC-Refers-To" = false -> samename m "WARC-Type" = false -> samename m "Content-Type" = false -> samename m "WARC-Date" = false ->
    hget h m = None).
  { intros m A1 A2 A3 A4. rewrite K4, K3, A2, K2, A3, K1, A4; auto. }
  assert (HT : hget h "WARC-Type" = Some (req_type r)) by (rewrite K4, K3 by reflexivity; names; auto).
  assert (HC : hget h "Content-Type" = Some (r_mime r)) by (rewrite K4, K3, K2 by reflexivity; names; auto).
  assert (HD : hget h "WARC-Date" = Some (f_clock s0)) by (rewrite K4, K3, K2, K1 by reflexivity; names; auto).
  assert (BA : base C (req_type r) refo h).
  { split; [auto|]. split; [split; rewrite I4, I3, I2, I1; cbn [Header_New h_id]|].
    - unfold len. rewrite repeat_length. lia.
    - apply Forall_forall. intros c Hc. apply repeat_spec in Hc. lia.
    - split; [auto|]. split; [auto|]. split; [apply HN; reflexivity|]. split; [apply HN; reflexivity|]. split; [apply HN; reflexivity|]. lia. }
  eapply al_bind with (Q := fun sj s' => s' = s0 /\ sj = mkJ L h None 0 [] None [] [] 0 (z_init L) [] ZNone).
  { unfold SegJob_New. cbv zeta. fold (hget h "Content-Type") (hget h "WARC-Type") (hget h "WARC-Date") (hget h "WARC-Segment-Number")
      (hget h "WARC-Payload-Digest") (hget h "WARC-Segment-Origin-ID") (hget h "WARC-Segment-Total-Length").
    rewrite HT, HC, HD. rewrite !HN by reflexivity. cbn [negb assert bindp]. apply al_ret. auto. }
  cbn beta. intros sj s1 (-> & ->).
  apply KK; auto; apply HN; reflexivity.
Qed.

Lemma live o : gives id o -> alive (main_store C L r) s0 (fun x s' => x = prefix ++ id /\ (o = None -> f_idx s' <> f_idx s0 /\ tight C s0 s' id)).
Proof.
  intros GV. destruct RO as [_ FA _]. unfold main_store.
  eapply al_bind with (Q := fun x s' => cache_ok C s0 (fst x) /\ going s' (snd x) (List.concat (r_data r))).
  2:{ cbn beta. intros (aa & sj) s1 (CA & G). eapply commit_live; eauto. }
  apply start_live. intros h BA _ _ _ _. destruct (r_data r) as [|d ds] eqn:ED; [congruence|].
  assert (LEFT' : exists m, m < 2 ^ 32 - 1 /\ f_silo s0 m = None /\ none m = None /\ m < N.of_nat (c_fuel C)).
  { destruct LEFT as (m & M1 & M2 & M3). exists m. auto. }
  cbn [feed_all]. unfold SegJob_Feed. inversion FA as [|? ? (N0 & _) FA']; subst.
  assert (LD : len d + len (List.concat ds) = D) by (rewrite ED; cbn [List.concat]; rewrite len_app; auto).
  eapply al_bind; [eapply (feed_first C L CO ZO ZL s0 AO DT none D FI LEFT' (req_type r) refo ty kz KZ); cbn [sj_hdr]; eauto|].
  - repeat split; auto.
  - apply cache_0.
  - lia.
  - unfold rounds in RD. lia.
  - cbn beta. intros (aa1 & sj1) s2 (CA & G). cbn [fst snd] in *. eapply al_weak; [eapply feed_all_live; eauto; lia|]. cbn beta. intros [aa3 sj3] s3 (EA & H). cbn [fst snd] in *. subst aa3. split; [exact CA|exact H].
Qed.
End Job.
