(* A store which aborts after it has put part of an object in the archive. *)
From Coq Require Import String Permutation.
From Coq Require Import ZifyBool ZifyNat ZifyN.
From Verif Require Import Base RoomSpec BaseLemmas ListLemmas IndexModel IndexSpec HeaderModel HeaderSpec HeaderProofs
  InflateSpec InflateProofs GzipModel GzipSpec GzipProofs ProgModel StoreModel StoreSpec StoreSysModel StoreWp StoreCalls StoreSys StoreHdr
  StoreWrite StoreCommit StoreJob StoreMain StoreGet StoreWorld StoreAgain LiveSpec LiveMain LiveJob LiveEnd BigSpec BigMain BigJob
  StoreToy StoreWit StoreRuns StoreEnd LiveToy BigToy LiveRuns BigEnd.
Open Scope string_scope.
Open Scope list_scope.
Open Scope N_scope.

Definition dies {A} (p : prog A) (s : fs) (P : fs -> Prop) : Prop := exists s', run p s = (s', inr DAbort) /\ P s'.

Lemma dies_bind {A B} (p : prog A) (k : A -> prog B) s Q P : alive p s Q -> (forall a s', Q a s' -> dies (k a) s' P) -> dies (bindp p k) s P.
Proof. intros (a & s1 & E & H) K. destruct (K a s1 H) as (s2 & E2 & H2). exists s2. rewrite run_bind, E. auto. Qed.
Lemma dies_now {A B} (p : prog A) (k : A -> prog B) s P : dies p s P -> dies (bindp p k) s P.
Proof. intros (s1 & E & H). exists s1. rewrite run_bind, E. auto. Qed.
Lemma dies_weak {A} (p : prog A) s (P P' : fs -> Prop) : dies p s P -> (forall s', P s' -> P' s') -> dies p s P'.
Proof. intros (s1 & E & H) K. exists s1. auto. Qed.
Lemma dies_assert {A} (b : bool) (k : unit -> prog A) s (P : fs -> Prop) : b = false -> P s -> dies (bindp (assert b) k) s P.
Proof. intros -> H. exists s. auto. Qed.

Section Die.
Variable C : conf.
Variable L : zlib.
Hypothesis CO : conf_ok C.
Hypothesis ZO : zlib_ok L.
Hypothesis ZL : zlib_live L.
Notation prefix := (c_prefix C).
Variable s0 : fs.
Variable r : request.
Hypothesis FA : fits_any C.
Variable SL : len (List.concat (r_data r)) < 2 ^ 62.
Variable PS : bytes -> Prop.
Variable Rmin : N.
Hypothesis RM4 : 4000 <= Rmin.
Hypothesis RFIT : forall n, n < 2 ^ 32 -> 2 * len (warcinfo_body C (c_base C n)) + 8000 + Rmin <= c_max C.
Hypothesis SZ : forall R z a d b o fl, steered L R z d o fl -> Rmin <= R <= c_max C -> List.concat (r_data r) = a ++ d ++ b -> PS d.
Variable id : bytes.
Variable kz : N.
Hypothesis KZ : forall t, is_bytes t -> 0 < len t <= 4096 -> len (z_gzip L 0 t) = len t + kz.
Notation refo := (LiveJob.refo C r).
Notation typ := (req_type r).
Notation dl := (BigMain.dl C L s0 PS typ refo kz).

Lemma FIT1 : forall n, n < 2 ^ 32 -> len (warcinfo_body C (c_base C n)) <= 2 ^ 19 /\
  2 * len (warcinfo_body C (c_base C n)) + 8 * 0 + 12000 <= c_max C.
Proof. intros n H. specialize (FA n H). lia. Qed.

(* wsilo.c:536: between one and four bytes too many *)
Lemma seg_dies s aa sl h cid rid i : hgood h -> is_bytes (h_id h) -> hlen prefix h + i <= 3000 -> 1 <= i <= 4 ->
  w_buf sl = false -> w_hlen sl = hlen prefix h + kz + i -> dies (Wsilo_Commit C L aa sl h true cid rid) s (eq s).
Proof.
  intros G I2 LH I4 EB EL. unfold Wsilo_Commit. rewrite EB. cbn [negb assert bindp].
  destruct (hser_live C L CO ZO ZL 0 h G I2) as (v & EV & LV & LV2); [lia|]. rewrite EV. cbn [bindp].
  rewrite (stored_len C L CO 0 FIT1 typ kz KZ h G I2) in LV2 by lia.
  rewrite EL. replace (Z.of_N (hlen prefix h + kz + i) - Z.of_N (len v))%Z with (Z.of_N i) by lia.
  replace (0 <? Z.of_N i)%Z with true by lia. cbn [negb andb bindp]. apply dies_now. apply dies_assert; [lia|auto].
Qed.

Lemma rest_dies size fid e : len fid = c_idsize C -> Forall (fun c => is_hex c = true) fid ->
  (exists j, 1 <= j <= 4 /\ len (dec (size - len e + c_max C)) + len (dec (c_max C)) + 8 = len (dec (len e)) + len (dec size) + j) ->
  forall sgs H b i front s aa, 1 < i -> dl H b i sgs (front ++ [e]) -> b + len (List.concat front) + len e = size -> NoDup (silos sgs) -> 
  Forall (fun d => len d < 10 * c_max C) front ->
  (forall n, In n (silos sgs) -> f_hold s n = H n /\ f_silo s n = f_silo s0 n) ->
  dies (commit_loop C L aa fid size sgs) s (fun s' => (exists l, f_idx s' = f_idx s ++ l) /\ exists n, f_hold s' n <> None).
Proof.
  intros LF HF (j & J4 & EJ). destruct (co_prefix C CO) as ((P1 & P2 & _) & P3 & P4).
  induction sgs as [|sg q IH]; intros H b i front s aa I1 DL EB NO FF ST; [destruct front; contradiction|]. cbn [commit_loop].
  assert (K : exists d rd, front ++ [e] = d :: rd) by (destruct front; cbn [app]; eauto). destruct K as (d & rd & ED). rewrite ED in DL. cbn [BigMain.dl] in DL.
  destruct DL as ((E1 & (G & (J1 & J2) & HT & HR & HZ & HN & HO & HP & HL) & _ & SA & PD) & DL).
  destruct SA as (hb & idx & len0 & st & sl & wid & _ & _ & _ & S4 & S5 & S6 & S7 & S8 & S9 & S10).
  cbn [silos map] in NO. apply NoDup_cons_iff in NO. destruct NO as (NO1 & NO2).
  destruct (ST (w_no (sg_silo sg)) (or_introl eq_refl)) as (T1 & T2). unfold origin, cnum, slack, kept in *. rewrite E1. replace (i =? 1) with false in * by lia.
  destruct HO as (v & HO & LV).
  set (w := [60] ++ prefix ++ firstn (N.to_nat (c_idsize C)) fid ++ [62]).
  assert (GW : goodval w).
  { unfold w. repeat apply goodval_app; try (apply goodb_val; reflexivity); [split; auto|apply goodval_firstn; apply goodval_hex; auto]. }
  assert (LW : len w = len v). { unfold w. rewrite firstn_all2 by (unfold len in LF; lia). rewrite !len_app. change (len [60]) with 1. change (len [62]) with 1. lia. }
  destruct (hset_old prefix (sg_hdr sg) "WARC-Segment-Origin-ID" v w G eq_refl GW HO) as (h1 & F1 & G1 & D1 & GG1 & LL1).
  unfold Header_Set_Ref, guard. replace (c_idsize C <=? len fid) with true by lia. cbn [bind]. fold w. unfold hset in F1. rewrite F1. cbn [bindp].
  assert (EZ : hget h1 "z" = None) by (rewrite GG1; names; auto).
  assert (EN : hget h1 "WARC-Segment-Number" = Some (dec i)) by (rewrite GG1; names; auto).
  pose proof (dec_pos (b + c_max C)) as DPB. destruct front as [|d' front].
  - cbn [app] in ED. injection ED as <- <-. destruct q as [|n q]; [|contradiction]. cbn [List.concat] in EB. change (len []) with 0 in EB.
    assert (EL : hget h1 "WARC-Segment-Total-Length" = None) by (rewrite GG1; names; auto).
    destruct (hset_new prefix h1 "WARC-Segment-Total-Length" (dec size) G1 eq_refl (goodval_dec _) EL) as (h2 & F2 & G2 & D2 & GG2 & LL2).
    rewrite F2. cbn [bindp]. unfold Header_Len in LL2. rewrite len_str in LL2. cbn [String.length] in LL2.
    replace (size - len e + c_max C) with (b + c_max C) in EJ by lia.
    apply dies_now. eapply dies_weak; [apply (seg_dies s aa (sg_silo sg) h2 _ _ j)|].
    1: exact G2. 1: rewrite D2, D1; exact J2. 1: lia. 1: exact J4. 1: rewrite S8; reflexivity.
    { rewrite S8. cbn [w_hlen]. lia. }
    cbn beta. intros s' <-. split; [exists []; rewrite app_nil_r; auto|]. exists (w_no (sg_silo sg)). congruence.
  - cbn [app] in ED. injection ED as <- <-. apply Forall_cons_iff in FF. destruct FF as (PD1 & FF').
    cbn [List.concat] in EB. rewrite len_app in EB. pose proof (dec_ten (len d') (c_max C) PD1) as DT1.
    destruct q as [|n q]; [destruct front; contradiction|].
    cbn [bindp]. eapply dies_bind.
    { eapply (commit_seg C L CO ZO ZL r FA SL PS Rmin RM4 RFIT SZ id kz KZ s aa (sg_silo sg) h1 _ _ (dec i) hb (hlen prefix (sg_hdr sg) + sl - hlen prefix h1) idx len0 st wid). 
      1: congruence. 1: congruence. 1: exact G1. 1: rewrite D1; exact J2. 1: exact EZ. 1: exact EN. 1, 2: lia.
      { rewrite S8 at 1. f_equal. lia. } { exact S9. } { lia. } }
    cbn beta. intros aa1 s1 ((e1 & l1 & X1) & X2).
    eapply dies_weak; [apply (IH H (b + len d') (i + 1) front s1 aa1); [lia|auto|lia|auto|auto|]|].
    + intros m Hm. destruct (X2 m) as (A & B); [intros ->; auto|]. destruct (ST m (or_intror Hm)) as (A' & B'). split; congruence.
    + cbn beta. intros s2 ((l2 & E2) & HH). split; [|auto]. exists ((e1 :: l1) ++ l2). rewrite E2, X1, app_assoc. auto.
Qed.
End Die.

Section Commit.
Variable C : conf.
Variable L : zlib.
Hypothesis CO : conf_ok C.
Hypothesis ZO : zlib_ok L.
Hypothesis ZL : zlib_live L.
Hypothesis ZS : zlib_steer L.
Notation prefix := (c_prefix C).
Variable s0 : fs.
Variable r : request.
Hypothesis RO : request_ok r.
Hypothesis NI : r_ident r = None.
Hypothesis ND : r_data r <> [].
Hypothesis FA : fits_any C.
Hypothesis NL : numbers_left C s0 r.
Hypothesis RD : rounds_any C r.
Variable SL : len (List.concat (r_data r)) < 2 ^ 62.
Variable PS : bytes -> Prop.
Variable Rmin : N.
Hypothesis RM4 : 4000 <= Rmin.
Hypothesis RFIT : forall n, n < 2 ^ 32 -> 2 * len (warcinfo_body C (c_base C n)) + 8000 + Rmin <= c_max C.
Hypothesis SZ : forall R z a d b o fl, steered L R z d o fl -> Rmin <= R <= c_max C -> List.concat (r_data r) = a ++ d ++ b -> PS d.
Variable id : bytes.
Hypothesis RID : req_id C (z_sha L) r id.
Variable kz : N.
Hypothesis KZ : forall t, is_bytes t -> 0 < len t <= 4096 -> len (z_gzip L 0 t) = len t + kz.
Notation DATA := (List.concat (r_data r)).
Notation D := (len DATA).

(* the last segment, e, compresses so well that there are too few bytes left for
   padding, and the ones before it do not *)
Lemma commit_dies s aa sj a : gives C s0 id None -> busy C L s0 PS Rmin (req_type r) (LiveJob.refo C r) kz s sj DATA ->
  DATA = a ++ sj_seg L sj -> a <> [] -> (forall b d c, a = b ++ d ++ c -> PS d -> len d < 10 * c_max C) ->
  (exists j, 1 <= j <= 4 /\ len (dec (len a + c_max C)) + len (dec (c_max C)) + 8 = len (dec (len (sj_seg L sj))) + len (dec D) + j) ->
  dies (SegJob_Commit C L aa sj) s (fun s' => f_idx s' <> f_idx s0 /\ ~ at_rest s').
Proof.
  intros GV BU EA NA SMALL EJ. unfold SegJob_Commit. destruct (id_hex C L CO ZO r NI id RID) as (HX & LX). pose proof (dec_pos (c_max C)) as DPM.
  eapply dies_bind; [apply (all_segs C L CO ZO ZL ZS s0 r RO NI ND FA NL RD SL PS Rmin RM4 RFIT SZ id RID kz KZ s aa sj BU)|].
  cbn beta. intros x s1 (H & sj1 & sg & rest & d1 & ds & ds0 & -> & E1 & E2 & ST & EH & NO & HS & DL & EDS & EDA & PD & E3 & E4 & E5 & SA).
  cbv zeta. unfold Header_Get_Id. rewrite E4. rewrite good_d2i by auto. cbn [lift bindp].
  eapply dies_bind; [apply (gives_still C s0 id None); [exact GV|exact ST]|]. cbn beta. intros gj s2 (-> & ->).
  assert (EC : List.concat ds0 = a).
  { assert (X : List.concat ds0 ++ sj_seg L sj = a ++ sj_seg L sj).
    { rewrite <- EA, EDA. change (d1 ++ List.concat ds) with (List.concat (d1 :: ds)). rewrite EDS, concat_app. cbn [List.concat]. rewrite app_nil_r. auto. }
    apply app_inv_tail in X. auto. }
  destruct ds0 as [|d0 front]; [cbn in EC; congruence|]. cbn [app] in EDS. injection EDS as E0 EDS. subst d0 ds. cbn [List.concat] in EC.
  assert (L1 : len d1 < 10 * c_max C) by (apply (SMALL [] d1 (List.concat front)); auto).
  pose proof (dec_ten (len d1) (c_max C) L1) as DTD.
  assert (FF : Forall (fun d => len d < 10 * c_max C) front).
  { apply Forall_forall. intros d Hd. assert (PSd : PS d).
    { clear - DL Hd. revert DL Hd. generalize (len d1), 2. revert rest. induction front as [|f fr IH]; intros rest b i DL [].
      - subst f. destruct rest; cbn [app BigMain.dl] in DL; [contradiction|]. tauto.
      - destruct rest; cbn [app BigMain.dl] in DL; [contradiction|]. eapply IH; [apply DL|auto]. }
    apply in_split in Hd. destruct Hd as (f1 & f2 & ->). rewrite concat_app in EC. cbn [List.concat] in EC.
    apply (SMALL (d1 ++ List.concat f1) d (List.concat f2)); auto. rewrite <- app_assoc. auto. }
  unfold slack in SA. change (kept C 0 1) with 118 in SA.
  rewrite E1. destruct rest as [|sg2 rest]; [destruct front; contradiction|].
  destruct SA as (hb & idx & len0 & st & sl & wid & S1 & S2 & S3 & S4 & S5 & S6 & S7 & S8 & S9 & S10).
  replace (N.of_nat (S (List.length (sg2 :: rest))) =? 1) with false by (cbn [List.length]; lia). cbv iota. apply dies_now. rewrite E2.
  cbn [commit_loop]. rewrite E3. change (1 =? 1) with true. cbv iota.
  destruct (hset_new prefix (sg_hdr sg) "WARC-Segment-Number" (str "1") S2 eq_refl ltac:(apply goodb_val; reflexivity) E5) as (h1 & F1 & G1 & D1 & GG1 & LL1).
  rewrite F1. cbn [bindp]. unfold Header_Len in LL1. rewrite !len_str in LL1. cbn [String.length] in LL1.
  destruct ST as (T1 & T2 & T3). cbn [silos map] in NO. apply NoDup_cons_iff in NO. destruct NO as (NO1 & NO2).
  eapply dies_bind; [eapply (commit_seg C L CO ZO ZL r FA SL PS Rmin RM4 RFIT SZ id kz KZ s1 aa (sg_silo sg) h1 _ _ (str "1") hb (hlen prefix (sg_hdr sg) + sl - hlen prefix h1) idx len0 st wid)|].
  { rewrite EH; auto. } { rewrite T1; auto. } { exact G1. } { rewrite D1; apply S3. } { rewrite GG1; names; auto. } { rewrite GG1; names; auto. }
  1, 2: lia.
  { rewrite S8 at 1. f_equal. lia. } { exact S9. } { lia. }
  cbn beta. intros aa1 s2 ((e & l & X1) & X2).
  assert (LDA : D = len d1 + len (List.concat front) + len (sj_seg L sj)) by (rewrite EA, <- EC, !len_app; auto).
  assert (LA : len a = len d1 + len (List.concat front)) by (rewrite <- EC, len_app; auto).
  replace (len a) with (D - len (sj_seg L sj)) in EJ by lia.
  eapply dies_weak; [apply (rest_dies C L CO ZO ZL s0 r FA SL PS Rmin RM4 RFIT SZ id kz KZ D id (sj_seg L sj) LX HX EJ (sg2 :: rest) H (len d1) 2 front s2 aa1); auto; [lia|]|].
  - intros n Hn. destruct (X2 n) as (A & B); [intros ->; auto|]. rewrite A, B, EH, T1. auto.
  - cbn beta. intros s3 ((l2 & X3) & n & Hn). split; [|intros X; apply Hn; auto].
    rewrite X3, X1, T2. intros X. apply (f_equal (@List.length ixent)) in X. rewrite !app_length in X. cbn [List.length] in X. lia.
Qed.
End Commit.
