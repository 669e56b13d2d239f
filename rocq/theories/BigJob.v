(* The whole store command, alone, for objects of any size. *)
From Coq Require Import String Permutation.
From Coq Require Import ZifyBool ZifyNat ZifyN.
From Verif Require Import Base RoomSpec BaseLemmas ListLemmas IndexModel IndexSpec HeaderModel HeaderSpec HeaderProofs
  InflateSpec InflateProofs GzipModel GzipSpec GzipProofs ProgModel StoreModel StoreSpec StoreSysModel StoreWp StoreCalls StoreSys StoreHdr
  StoreWrite StoreCommit StoreJob StoreMain StoreGet StoreWorld StoreAgain LiveSpec LiveMain LiveJob BigSpec BigMain.
Open Scope string_scope.
Open Scope list_scope.
Open Scope N_scope.

Section Job.
Variable C : conf.
Variable L : zlib.
Hypothesis CO : conf_ok C.
Hypothesis ZO : zlib_ok L.
Hypothesis ZL : zlib_live L.
Hypothesis ZS : zlib_steer L.
Notation prefix := (c_prefix C).
Variable s0 : fs.
Hypothesis AO : archive_ok C L s0.
Hypothesis DT : date_ok (f_clock s0).
Hypothesis QU : at_rest s0.
Variable r : request.
Hypothesis RO : request_ok r.
Hypothesis NI : r_ident r = None.
Hypothesis ND : r_data r <> [].
Hypothesis FA : fits_any C.
Hypothesis NL : numbers_left C s0 r.
Hypothesis RD : rounds_any C r.
Hypothesis SL : len (List.concat (r_data r)) < 2 ^ 62.
Variable PS : bytes -> Prop.
Variable Rmin : N.
Hypothesis RM4 : 4000 <= Rmin.
Hypothesis RFIT : forall n, n < 2 ^ 32 -> 2 * len (warcinfo_body C (c_base C n)) + 8000 + Rmin <= c_max C.
Hypothesis SZ : forall R z a d b o fl, steered L R z d o fl -> Rmin <= R <= c_max C -> List.concat (r_data r) = a ++ d ++ b -> PS d.
Variable id : bytes.
Hypothesis RID : req_id C (z_sha L) r id.

Notation DATA := (List.concat (r_data r)).
Notation D := (len DATA).
Variable kz : N.
Hypothesis KZ : forall t, is_bytes t -> 0 < len t <= 4096 -> len (z_gzip L 0 t) = len t + kz.
Notation refo := (LiveJob.refo C r).
Notation typ := (req_type r).
Notation idle := (BigMain.idle C L s0 PS typ refo kz).
Notation busy := (BigMain.busy C L s0 PS Rmin typ refo kz).
Notation dl := (BigMain.dl C L s0 PS typ refo kz).
Notation start := (BigMain.start DATA).
Notation seg_at := (BigMain.seg_at C s0 kz).

Lemma FIT0 : forall n, n < 2 ^ 32 -> len (warcinfo_body C (c_base C n)) <= 2 ^ 19 /\
  2 * len (warcinfo_body C (c_base C n)) + 8 * 0 + 12000 <= c_max C.
Proof. intros n H. specialize (FA n H). lia. Qed.

Lemma feed_one s aa sj tk ip : ip <> [] -> cache_ok C s0 aa -> start (tk ++ ip) ->
  busy s sj tk \/ (exists ds, idle s sj tk ds /\ Forall (fun d => 300 <= len d) ds) ->
  alive (SegJob_Feed C L aa sj ip) s (fun x s' => cache_ok C s0 (fst x) /\ busy s' (snd x) (tk ++ ip)).
Proof.
  intros H1 H2 H3 H4. destruct NL as (m & k & N1 & N2 & N3 & N4 & N5). unfold rounds_any in RD.
  eapply al_weak; [apply (feed_big C L CO ZO ZL ZS s0 AO DT DATA FIT0 m k N1 N2 N3 N4 N5 SL PS Rmin RM4 RFIT SZ typ refo (ty C r) kz KZ (c_fuel C) s aa sj tk ip); auto|cbn beta; tauto].
  pose proof (start_len _ _ H3) as LD. rewrite len_app in LD. destruct H4 as [H4|H4]; [left|right]; (split; [auto|lia]).
Qed.

Lemma feed_done' s aa sj tk : busy s sj tk -> start tk ->
  alive (SegJob_Feed C L aa sj []) s (fun x s' => fst x = aa /\ (exists ds, idle s' (snd x) tk (ds ++ [sj_seg L sj])) /\ sj_done L (snd x) <> []).
Proof.
  intros H1 H3. destruct NL as (m & k & N1 & N2 & N3 & N4 & N5). unfold rounds_any in RD.
  apply (feed_done C L CO ZO ZL ZS s0 DATA FIT0 m k N1 N2 N3 N4 N5 SL PS Rmin RM4 RFIT SZ typ refo (ty C r) kz KZ (c_fuel C) s aa sj tk); auto; lia.
Qed.

Lemma feed_all_big ds : forall s aa sj tk, cache_ok C s0 aa -> busy s sj tk -> Forall (fun d => d <> [] /\ is_bytes d) ds -> start (tk ++ List.concat ds) ->
  alive (feed_all C L aa sj ds) s (fun x s' => cache_ok C s0 (fst x) /\ busy s' (snd x) (tk ++ List.concat ds)).
Proof.
  induction ds as [|d ds IH]; intros s aa sj tk CA G F LD; cbn [feed_all List.concat] in *.
  - apply al_ret. cbn [fst snd]. rewrite app_nil_r. auto.
  - inversion F as [|? ? (N0 & _) F']; subst. rewrite app_assoc in LD.
    eapply al_bind; [apply (feed_one s aa sj tk d); auto; eapply start_app; eauto|].
    cbn beta. intros (aa1 & sj1) s1 (CA1 & G1). cbn [fst snd] in *. eapply al_weak; [eapply IH; eauto|].
    cbn beta. intros x s2 H. rewrite app_assoc. auto.
Qed.

(** * Commit *)

Lemma commit_seg s aa sl h cid rid t hb i idx len0 st wid : f_hold s (w_no sl) = Some hb -> f_silo s (w_no sl) = None ->
  hgood h -> is_bytes (h_id h) -> hget h "z" = None -> hget h "WARC-Segment-Number" = Some t -> hlen prefix h + i <= 3000 -> 5 <= i ->
  sl = mkW (w_no sl) idx len0 st (hlen prefix h + kz + i) false wid -> len hb = len0 -> st + (hlen prefix h + kz + i) <= len0 ->
  alive (Wsilo_Commit C L aa sl h true cid rid) s (fun _ s' => (exists e l, f_idx s' = f_idx s ++ e :: l) /\
    forall m, m <> w_no sl -> f_hold s' m = f_hold s m /\ f_silo s' m = f_silo s m).
Proof.
  intros HE FN G I2 HZ HT LH I5 E LB LS. unfold Wsilo_Commit.
  assert (EB : w_buf sl = false /\ w_hlen sl = hlen prefix h + kz + i /\ w_len sl = len0 /\ w_start sl = st) by (rewrite E; auto).
  destruct EB as (EB & EL & EN & ES).
  apply al_assert; [rewrite EB; auto|]. cbn [negb andb bindp].
  destruct (hser_live C L CO ZO ZL 0 h G I2) as (v & EV & LV & LV2); [lia|]. rewrite EV. cbn [bindp]. rewrite (stored_len C L CO 0 FIT0 typ kz KZ h G I2) in LV2 by lia.
  rewrite EL. replace (Z.of_N (hlen prefix h + kz + i) - Z.of_N (len v))%Z with (Z.of_N i) by lia.
  replace (0 <? Z.of_N i)%Z with true by lia. replace (5 <=? Z.of_N i)%Z with true by lia. cbn [assert bindp].
  assert (GV : goodval (repeat 95 (Z.to_nat (Z.of_N i - 5)))).
  { apply goodval_repeat. apply goodb_val. reflexivity. }
  destruct (hset_new prefix h "z" _ G eq_refl GV HZ) as (h2 & E2 & G2 & D2 & GG2 & LL). rewrite E2. cbn [bindp].
  unfold Header_Len in LL. assert (LR : len (repeat 95 (Z.to_nat (Z.of_N i - 5))) = i - 5) by (unfold len; rewrite repeat_length; lia).
  rewrite LR, len_str in LL. cbn [String.length] in LL. assert (LL2 : hlen prefix h2 = hlen prefix h + i) by lia.
  destruct (hser_live C L CO ZO ZL 0 h2 G2) as (v2 & EV2 & _ & LV3); [rewrite D2; auto|lia|]. rewrite EV2. cbn [bindp].
  rewrite (stored_len C L CO 0 FIT0 typ kz KZ h2 G2) in LV3 by (rewrite ?D2; auto; lia). apply al_assert; [rewrite LV3; lia|].
  apply al_sys. cbn [exec fst snd]. fold (hget h2 "WARC-Segment-Number"). rewrite GG2. names. rewrite HT. cbn [bindp]. unfold insert. apply al_sys. cbn [exec fst snd].
  unfold Wsilo_Install, insert, wsilo_delete. apply al_sys. cbn [exec fst snd]. apply al_sys.
  cbn [exec set_hold f_silo]. rewrite FN. cbn [fst snd]. apply al_assert; [auto|].
  eapply al_bind with (Q := fun _ s' => (exists e l, f_idx s' = f_idx s ++ e :: l) /\
    forall m, m <> w_no sl -> f_hold s' m = f_hold s m /\ f_silo s' m = f_silo s m).
  { destruct (w_no sl =? fst aa); [unfold WriteCache; apply al_sys|]; apply al_ret; cbn [exec fst set_hold set_silo f_idx f_silo f_hold];
      (split; [rewrite <- app_assoc; eexists; eexists; reflexivity|]); intros m Hm; rewrite !upd_other; auto. }
  intros a s2 (N1 & N2). apply al_sys. apply al_ret. cbn [exec fst set_hold f_idx f_hold f_silo]. split; [auto|].
  intros m Hm. rewrite upd_other; auto.
Qed.

Lemma id_hex : Forall (fun c => is_hex c = true) id /\ len id = c_idsize C.
Proof.
  pose proof (co_idsize C CO) as CI. assert (K : exists y, id = firstn (N.to_nat (c_idsize C)) (z_sha L y)).
  { unfold req_id in RID. cbv zeta in RID. rewrite NI in RID. destruct (r_meta r); eauto. }
  destruct K as (y & ->). split; [apply forall_firstn; apply sha_hex; auto|]. apply ident_len; auto. apply (len_sha L ZO).
Qed.

(* the end of the object: what there is to commit *)
Lemma all_segs s aa sj : busy s sj DATA -> alive (segjob_ident C L aa sj) s (fun x s' => exists H sj' sg rest d1 ds ds0, x = (aa, sj', sg, rest) /\ sj_nseg L sj' = N.of_nat (S (List.length rest)) /\ sj_size L sj' = D /\
     still s0 s' /\ (forall n, f_hold s' n = H n) /\ NoDup (silos (sg :: rest)) /\ (forall n, H n <> None -> In n (silos (sg :: rest))) /\ dl H (len d1) 2 rest ds /\
     d1 :: ds = ds0 ++ [sj_seg L sj] /\ DATA = d1 ++ List.concat ds /\ PS d1 /\
     sg_no sg = 1 /\ h_id (sg_hdr sg) = id /\ hget (sg_hdr sg) "WARC-Segment-Number" = None /\
     seg_at H (slack C 0 1 d1 - match rest with [] => 0 | _ => 94 end) sg).
Proof.
  intros BU. unfold segjob_ident.
  assert (D0 : 0 < D).
  { destruct RO as [_ FF _]. destruct (r_data r) as [|d ds]; [congruence|]. inversion FF as [|? ? (N0 & _) _]; subst.
    cbn [List.concat]. rewrite len_app. destruct d; [congruence|]. rewrite len_cons. lia. }
  assert (DX : forall h, cid C L typ refo 1 h (List.concat (r_data r)) -> h_id h = id).
  { intros h (x & X1 & X2 & X3). unfold req_id in RID. cbv zeta in RID. rewrite NI in RID. unfold ctype, req_type, LiveJob.refo in *. cbn [N.eqb Pos.eqb] in *. destruct (r_meta r).
    - destruct (X2 eq_refl) as (ref & E1 & E2). injection E1 as <-. rewrite X1, E2, RID. auto.
    - rewrite X1, X3 by discriminate. auto. }
  destruct id_hex as (HX & LX).
  eapply al_bind; [apply (feed_done' s aa sj _ BU); exists []; rewrite app_nil_r; auto|]. cbn beta.
    intros (aa1 & sj1) s1 (EA & (ds0 & H & I1 & I2 & I3 & BA & _ & I5 & I6 & I7 & I8 & I9 & I10 & I11 & I12 & I13 & I14) & NE). cbn [fst snd] in *.
    apply al_assert; [rewrite I7; lia|]. destruct (sj_done L sj1) as [|sg rest] eqn:ED; [congruence|].
    destruct (ds0 ++ [sj_seg L sj]) as [|d ds] eqn:EDS; [contradiction|]. cbn [BigMain.dl] in I12. destruct I12 as ((E1 & CH & CI & SA & PD) & DL).
    change (1 + 1) with 2 in DL. cbn [List.length] in I3. assert (DI : D = len d + len (List.concat ds)) by (rewrite I8; cbn [List.concat]; apply len_app).
    pose proof (dec_len (len d) ltac:(lia)) as DTD. assert (SL94 : 94 <= slack C 0 1 d) by (unfold slack; change (kept C 0 1) with 118; lia). rewrite N.add_0_l in DL. pose proof CH as CH0.
    destruct CH as (G & (J1 & J2) & HT & HR & HZ & HN & HO & HP & HL). rewrite I3. destruct rest as [|sg2 rest].
    + change (1 <? N.of_nat (S (List.length (@nil segment)))) with false. cbn [bindp]. apply al_ret. subst aa1.
      destruct ds as [|d2 ds]; [|contradiction]. cbn [List.concat] in I8. rewrite app_nil_r in I8. subst d.
      exists H, sj1, (mkS (sg_no sg) (sg_hdr sg) (sg_silo sg) (sg_size sg)), [], DATA, [], ds0. cbn [sg_no sg_hdr sg_silo sg_size].
      split; [auto|]. split; [auto|]. split; [auto|]. split; [auto|]. split; [auto|]. split; [exact I13|]. split; [exact I14|]. split; [exact Logic.I|].
      split; [auto|]. split; [cbn [List.concat]; rewrite app_nil_r; auto|]. split; [auto|]. split; [auto|]. split; [apply DX; exact CI|]. split; [auto|].
      destruct SA as (hb & idx & len0 & st & sl & wid & S1 & S2 & S3 & S4 & S5 & S6 & S7). exists hb, idx, len0, st, sl, wid. cbn [sg_hdr sg_silo].
      split; [auto|]. split; [auto|]. split; [auto|]. split; [auto|]. split; [auto|]. split; [lia|]. exact S7.
    + replace (1 <? N.of_nat (S (List.length (sg2 :: rest)))) with true by (cbn [List.length]; lia).
      pose proof (goodval_sha L ZO (sj_pay L sj1)) as GS.
      destruct (hset_new prefix (sg_hdr sg) "WARC-Payload-Digest" _ G eq_refl GS HP) as (h1 & F1 & G1 & D1 & GG1 & LL1). rewrite F1. cbn [bindp].
      unfold Header_Len in LL1. rewrite len_str_app, len_str, (len_sha L ZO) in LL1. cbn [String.length] in LL1.
      assert (HT1 : hget h1 "WARC-Type" = Some (ctype typ 1)) by (rewrite GG1; names; auto).
      assert (HR1 : hget h1 "WARC-Refers-To" = refo) by (rewrite GG1; names; auto).
      destruct (ident_big C L CO ZO typ refo (ty C r) 1 h1 (sj_pay L sj1) HT1 HR1) as (h2 & F2). rewrite I5, F2. cbn [lift bindp]. apply al_ret. subst aa1.
      apply ident_set_cases in F2; auto. destruct F2 as (EF & x & EX & X1 & X2). rewrite HT1, HR1 in X1. rewrite HT1 in X2.
      assert (K3 : forall m, hget h2 m = hget h1 m) by (intros q; unfold hget, Header_Get; rewrite EF; auto).
      assert (EI : h_id h2 = id).
      { apply DX. rewrite <- I6. exists x. split; [auto|]. split; [intros E; apply X1; congruence|]. intros E. apply X2. congruence. }
      assert (LH : hlen prefix h2 = hlen prefix (sg_hdr sg) + 94).
      { rewrite (hlen_eq _ h2), EF, EI, LX. rewrite (hlen_eq _ h1), D1, J1 in LL1. lia. }
      exists H, sj1, (mkS (sg_no sg) h2 (sg_silo sg) (sg_size sg)), (sg2 :: rest), d, ds, ds0. cbn [sg_no sg_hdr sg_silo sg_size].
      split; [auto|]. split; [auto|]. split; [congruence|]. split; [auto|]. split; [auto|]. split; [exact I13|]. split; [exact I14|].
      split; [exact DL|]. split; [auto|]. split; [rewrite I8; reflexivity|]. split; [auto|].
      split; [auto|]. split; [exact EI|]. split; [rewrite K3, GG1; names; exact HN|].
      destruct SA as (hb & idx & len0 & st & sl & wid & S1 & S2 & S3 & S4 & S5 & S6 & S7 & S8 & S9 & S10). exists hb, idx, len0, st, (sl - 94), wid. cbn [sg_hdr sg_silo].
      split; [rewrite K3, GG1; names; auto|]. split; [unfold hgood; rewrite EF; exact G1|]. split; [split; rewrite EI; auto; apply (hex_id id HX)|].
      split; [auto|]. split; [auto|]. split; [lia|]. split; [lia|]. split; [|split; [auto|lia]]. rewrite S8 at 1. f_equal. lia.
Qed.

Hypothesis P10 : forall d, PS d -> len d < 10 * c_max C.

Lemma commit_rest size fid : len fid = c_idsize C -> Forall (fun c => is_hex c = true) fid ->
  forall sgs H b i ds s aa, 1 < i -> dl H b i sgs ds -> b + len (List.concat ds) = size -> NoDup (silos sgs) -> 
  (forall n, In n (silos sgs) -> f_hold s n = H n /\ f_silo s n = f_silo s0 n) ->
  alive (commit_loop C L aa fid size sgs) s (fun _ s' => exists l, f_idx s' = f_idx s ++ l).
Proof.
  intros LF HF. destruct (co_prefix C CO) as ((P1 & P2 & _) & P3 & P4).
  induction sgs as [|sg q IH]; intros H b i ds s aa I1 DL EB NO ST; cbn [commit_loop].
  { apply al_ret. exists []. rewrite app_nil_r. auto. }
  destruct ds as [|d ds]; [contradiction|]. cbn [BigMain.dl] in DL.
  destruct DL as ((E1 & (G & (J1 & J2) & HT & HR & HZ & HN & HO & HP & HL) & _ & SA & PD) & DL).
  cbn [List.concat] in EB. rewrite len_app in EB. pose proof (P10 d PD) as PD1. pose proof (dec_ten (len d) (c_max C) PD1) as DT1.
  destruct SA as (hb & idx & len0 & st & sl & wid & _ & _ & _ & S4 & S5 & S6 & S7 & S8 & S9 & S10).
  cbn [silos map] in NO. apply NoDup_cons_iff in NO. destruct NO as (NO1 & NO2).
  destruct (ST (w_no (sg_silo sg)) (or_introl eq_refl)) as (T1 & T2). unfold origin, cnum, slack, kept in *. rewrite E1. replace (i =? 1) with false in * by lia.
  destruct HO as (v & HO & LV).
  set (w := [60] ++ prefix ++ firstn (N.to_nat (c_idsize C)) fid ++ [62]).
  assert (GW : goodval w).
  { unfold w. repeat apply goodval_app; try (apply goodb_val; reflexivity); [split; auto|apply goodval_firstn; apply goodval_hex; auto]. }
  assert (LW : len w = len v). { unfold w. rewrite firstn_all2 by (unfold len in LF; lia). rewrite !len_app. change (len [60]) with 1. change (len [62]) with 1. lia. }
  destruct (hset_old prefix (sg_hdr sg) "WARC-Segment-Origin-ID" v w G eq_refl GW HO) as (h1 & F1 & G1 & D1 & GG1 & LL1).
  unfold Header_Set_Ref, guard. replace (c_idsize C <=? len fid) with true by lia. cbn [bind]. fold w. unfold hset in F1. rewrite F1. cbn [bindp].
  assert (K : forall s1 aa1, (forall n, In n (silos q) -> f_hold s1 n = f_hold s n /\ f_silo s1 n = f_silo s n) ->
     (exists e l, f_idx s1 = f_idx s ++ e :: l) -> alive (commit_loop C L aa1 fid size q) s1 (fun _ s' => exists l, f_idx s' = f_idx s ++ l)).
  { intros s1 aa1 K1 (e & l & K2). eapply al_weak; [apply (IH H (b + len d) (i + 1) ds s1 aa1); [lia|auto|lia|auto|]|].
    - intros n Hn. destruct (K1 n Hn) as (A & B). destruct (ST n (or_intror Hn)) as (A' & B'). split; congruence.
    - cbn beta. intros _ s2 (l2 & E2). exists ((e :: l) ++ l2). rewrite E2, K2, app_assoc. auto. }
  assert (NI' : forall n, In n (silos q) -> n <> w_no (sg_silo sg)) by (intros n Hn ->; auto).
  assert (EZ : hget h1 "z" = None) by (rewrite GG1; names; auto).
  assert (EN : hget h1 "WARC-Segment-Number" = Some (dec i)) by (rewrite GG1; names; auto).
  pose proof (dec_pos (b + c_max C)) as DPB. destruct q as [|n q].
  - destruct ds as [|d2 ds]; [|contradiction]. cbn [List.concat] in EB. change (len []) with 0 in EB.
    pose proof (dec_ten size (b + c_max C) ltac:(lia)) as DT2. assert (EL : hget h1 "WARC-Segment-Total-Length" = None) by (rewrite GG1; names; auto).
    destruct (hset_new prefix h1 "WARC-Segment-Total-Length" (dec size) G1 eq_refl (goodval_dec _) EL) as (h2 & F2 & G2 & D2 & GG2 & LL2).
    rewrite F2. cbn [bindp]. unfold Header_Len in LL2. rewrite len_str in LL2. cbn [String.length] in LL2.
    eapply al_bind; [eapply (commit_seg s aa (sg_silo sg) h2 _ _ (dec i) hb (hlen prefix (sg_hdr sg) + sl - hlen prefix h2) idx len0 st wid)|].
    1: congruence. 1: congruence. 1: exact G2. 1: rewrite D2, D1; exact J2. 1: rewrite GG2; names; exact EZ. 1: rewrite GG2; names; exact EN.
    1, 2: lia.
    { rewrite S8 at 1. f_equal. lia. } { exact S9. } { lia. }
    cbn beta. intros aa1 s1 (X1 & X2). apply K; auto.
  - cbn [bindp]. eapply al_bind; [eapply (commit_seg s aa (sg_silo sg) h1 _ _ (dec i) hb (hlen prefix (sg_hdr sg) + sl - hlen prefix h1) idx len0 st wid)|].
    1: congruence. 1: congruence. 1: exact G1. 1: rewrite D1; exact J2. 1: exact EZ. 1: exact EN.
    1, 2: lia.
    { rewrite S8 at 1. f_equal. lia. } { exact S9. } { lia. }
    cbn beta. intros aa1 s1 (X1 & X2). apply K; auto.
Qed.

Lemma destroy_live sgs : forall s, alive (segjob_destroy sgs) s (fun _ _ => True).
Proof.
  induction sgs as [|sg q IH]; intros s; cbn [segjob_destroy]; [apply al_ret; auto|]. unfold wsilo_delete.
  eapply al_bind with (Q := fun _ _ => True); [apply al_sys; apply al_ret; auto|]. intros u s2 _. apply IH.
Qed.

Lemma commit_big s aa sj o : gives C s0 id o -> cache_ok C s0 aa -> busy s sj DATA -> 
  alive (SegJob_Commit C L aa sj) s (fun x s' => x = prefix ++ id /\ (o = None -> f_idx s' <> f_idx s0)).
Proof.
  intros GV CA BU. unfold SegJob_Commit. destruct id_hex as (HX & LX). pose proof (dec_pos (c_max C)) as DPM.
  eapply al_bind; [apply (all_segs s aa sj BU)|].
  - cbn beta. intros x s1 (H & sj1 & sg & rest & d1 & ds & ds0 & -> & E1 & E2 & ST & EH & NO & HS & DL & _ & EDA & PD & E3 & E4 & E5 & SA).
    assert (LDA : D = len d1 + len (List.concat ds)) by (rewrite EDA; apply len_app). pose proof (dec_ten (len d1) (c_max C) (P10 d1 PD)) as DTD.
    unfold slack in SA. change (kept C 0 1) with 118 in SA.
    cbv zeta. unfold Header_Get_Id. rewrite E4. rewrite good_d2i by auto. cbn [lift bindp].
    eapply al_bind; [apply (gives_still C s0 id o); [exact GV|exact ST]|]. cbn beta. intros gj s2 (-> & ->). destruct o as [gs|].
    { eapply al_bind; [apply destroy_live|]. intros u s2 _. apply al_ret. split; [auto|discriminate]. }
    destruct SA as (hb & idx & len0 & st & sl & wid & S1 & S2 & S3 & S4 & S5 & S6 & S7 & S8 & S9 & S10).
    rewrite E1. destruct rest as [|sg2 rest].
    + change (N.of_nat (S (List.length (@nil segment))) =? 1) with true. cbv iota.
      eapply al_bind; [eapply (Wsilo_Commit_live C L CO ZO ZL s0 AO QU (fun _ => None) 0 FIT0 typ kz KZ ltac:(auto) s1 aa (sg_silo sg) (sg_hdr sg) id hb sl idx len0 st wid); auto|].
      * split; [exact ST|]. split; [rewrite EH; auto|]. intros m Hm. rewrite EH. destruct (H m) eqn:X; [|auto]. exfalso.
        destruct (HS m) as [X1|[]]; [congruence|]. cbn [sg_silo] in X1. congruence.
      * lia.
      * cbn beta. intros a s2 (X & _). apply al_ret. auto.
    + replace (N.of_nat (S (List.length (sg2 :: rest))) =? 1) with false by (cbn [List.length]; lia). cbv iota.
      eapply al_bind with (Q := fun _ s' => f_idx s' <> f_idx s0); [|intros a s2 X; apply al_ret; auto].
      cbn [commit_loop]. rewrite E3. change (1 =? 1) with true. cbv iota.
      destruct (hset_new prefix (sg_hdr sg) "WARC-Segment-Number" (str "1") S2 eq_refl ltac:(apply goodb_val; reflexivity) E5) as (h1 & F1 & G1 & D1 & GG1 & LL1).
      rewrite F1. cbn [bindp]. unfold Header_Len in LL1. rewrite !len_str in LL1. cbn [String.length] in LL1.
      destruct ST as (T1 & T2 & T3). cbn [silos map] in NO. apply NoDup_cons_iff in NO. destruct NO as (NO1 & NO2).
      eapply al_bind; [eapply (commit_seg s1 aa (sg_silo sg) h1 _ _ (str "1") hb (hlen prefix (sg_hdr sg) + sl - hlen prefix h1) idx len0 st wid)|].
      { rewrite EH; auto. } { rewrite T1; auto. } { exact G1. } { rewrite D1; apply S3. } { rewrite GG1; names; auto. } { rewrite GG1; names; auto. }
      1, 2: lia.
      { rewrite S8 at 1. f_equal. lia. } { exact S9. } { lia. }
      cbn beta. intros aa1 s2 ((e & l & X1) & X2). 
      eapply al_weak; [apply (commit_rest (sj_size L sj1) id LX HX (sg2 :: rest) H (len d1) 2 ds s2 aa1); auto; [lia|lia|]|].
      * intros n Hn. destruct (X2 n) as (A & B); [intros ->; auto|]. rewrite A, B, EH, T1. auto.
      * cbn beta. intros _ s3 (l2 & X3). rewrite X3, X1, T2. intros X. apply (f_equal (@List.length ixent)) in X. rewrite !app_length in X. cbn [List.length] in X. lia.
Qed.

Hypothesis RF : r_meta r = true -> exists gs, gives C s0 (full_ref C r) (Some gs).

Lemma live_big o : gives C s0 id o -> alive (main_store C L r) s0 (fun x s' => x = prefix ++ id /\ (o = None -> f_idx s' <> f_idx s0)).
Proof.
  intros GV. destruct RO as [_ FF _]. unfold main_store.
  eapply al_bind with (Q := fun x s' => cache_ok C s0 (fst x) /\ busy s' (snd x) (List.concat (r_data r))).
  2:{ cbn beta. intros (aa & sj) s1 (CA & G). eapply commit_big; eauto. }
  apply (start_live C L CO s0 DT r RO NI ND id kz KZ RF). intros h BA B1 B2 B3 B4. assert (ED : exists d ds, r_data r = d :: ds) by (destruct (r_data r); [congruence|eauto]). destruct ED as (d & ds & ED).
  rewrite ED in FF |- *. cbn [feed_all]. inversion FF as [|? ? (N0 & _) FF']; subst.
  eapply al_bind; [apply (feed_one s0 (0, 0) _ [] d); auto|].
  - apply cache_0.
  - exists (List.concat ds). rewrite ED. reflexivity.
  - right. exists []. split; [|constructor]. exists (fun _ => None). cbn [sj_hdr sj_cur sj_ident sj_nseg sj_done sj_pay sj_seg sj_size sj_in sj_z sj_flag].
    repeat (split; [solve [auto | reflexivity | repeat split; auto | constructor]|]). intros n X. congruence.
  - cbn beta. intros (aa1 & sj1) s2 (CA & G). cbn [fst snd app] in *. cbn [List.concat]. apply feed_all_big; auto. exists []. rewrite ED, app_nil_r. reflexivity.
Qed.
End Job.
