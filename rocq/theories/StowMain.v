(* Proofs about whole exchanges between stow and stevedore *)
From Coq Require Import ZifyBool ZifyNat ZifyN.
From Verif Require Import Base BaseLemmas ListLemmas StowModel StowSpec StowProofs StowInv.
Open Scope list_scope.
Open Scope N_scope.

Section Main.
Variables (idsize : N) (prefix : bytes) (sha : bytes -> bytes) (meta_text : list (bytes * bytes) -> list bytes) (tree : subj).
Variables (reads : list (list subj)) (arch : list bytes).
Notation key := (key idsize).

Hypothesis PL : plausible idsize sha prefix meta_text.
Hypothesis FILES : Forall fine_file (List.concat reads).
Hypothesis TREE : fine_tree sha tree.

Notation inv := (inv idsize prefix sha meta_text tree reads arch).
Notation core := (core idsize tree reads arch).
Notation fresh := (fresh idsize prefix sha meta_text tree).
Notation step := (step idsize prefix sha meta_text tree).
Notation reach := (reach idsize prefix sha meta_text tree).
Notation round := (round meta_text tree).

Lemma inv_round fr o i t w w' : inv fr w -> ready o i t w = true -> round o i t w = Ok w' -> inv fr w'.
Proof.
  intros I RD E. unfold ready in RD.
  repeat (apply andb_prop in RD; destruct RD as [RD ?]). rename H into R4, H0 into R3, H1 into R2, H2 into R1.
  (* out *)
  set (w1 := if o then out_w meta_text w else w).
  assert (G1 : inv fr w1 /\ (fr -> c_up (w_c w1) = true -> c_send (w_c w1) = None -> c_get (w_c w1) <> [] -> w_cs w1 <> [] \/ c_subj (w_c w1) <> [])).
  { unfold w1. destruct o; cbn in R1.
    - apply andb_prop in R1. destruct R1 as [EN UP]. destruct (inv_out idsize prefix sha meta_text tree reads arch PL FILES TREE fr w I EN UP) as [I1 I2]. split; auto.
    - split; auto. intros FR UP SN GE. destruct I as (A & K & U & D & C & J & F). destruct (F FR) as (T & R & X & Y & H).
      destruct (c_en (w_c w)) eqn:EN.
      + left. rewrite UP in R4. cbn in R4. destruct (w_cs w); [discriminate|]. congruence.
      + destruct (f_E _ _ _ _ _ _ _ _ _ _ _ _ _ _ H EN) as (_ & _ & HE). exfalso. auto. }
  destruct G1 as [I1 PRE].
  unfold StowModel.round in E.
  assert (E1 : exists c f, (if o then stevedore_out meta_text (w_c w) else (w_c w, [])) = (c, f) /\ w1 = mkW c (w_s w) (w_cs w ++ f) (w_sc w) (w_hcs w ++ f) (w_hsc w)).
  { unfold w1, out_w. destruct o.
    - destruct (stevedore_out meta_text (w_c w)) as [c f]. eauto.
    - exists (w_c w), []. rewrite !app_nil_r. destruct w. auto. }
  destruct E1 as (c & f & E1 & EW). rewrite E1 in E.
  (* in *)
  destruct (match i, w_sc w with true, m :: r => let* c0 := stevedore_in m c in Ok (c0, r) | _, _ => Ok (c, w_sc w) end) as [[c2 sc]| | |] eqn:E2; try discriminate.
  cbn in E.
  assert (I2 : inv fr (in_w w1 c2 sc)).
  { assert (SAME : forall c2 sc, c2 = c -> sc = w_sc w -> inv fr (in_w w1 c2 sc)).
    { intros ? ? -> ->. replace (in_w w1 c (w_sc w)) with w1; auto. rewrite EW. auto. }
    destruct i; [|injection E2 as <- <-; auto]. destruct (w_sc w) as [|m r] eqn:ES; [injection E2 as <- <-; auto|].
    destruct (stevedore_in m c) as [c0| | |] eqn:E3; try discriminate. injection E2 as <- <-.
    eapply inv_in; eauto; rewrite EW; cbn; auto. }
  (* mtree *)
  destruct (if t then mtree_in tree c2 else Ok c2) as [c3| | |] eqn:E3; try discriminate. injection E as <-.
  replace (mkW c3 (w_s w) (w_cs w ++ f) sc (w_hcs w ++ f) (w_hsc w)) with (c_w (in_w w1 c2 sc) c3) by (rewrite EW; auto).
  destruct t.
  - eapply inv_mtree; eauto.
  - injection E3 as <-. auto.
Qed.

Lemma inv_step (fr : Prop) l w w' : inv fr w -> (fr -> tree_new idsize tree l) -> allowed idsize l w -> step l w = Some (Ok w') -> inv fr w'.
Proof.
  intros I OK AL E. destruct l as [o i t| | |th| | |n| |id]; cbn [StowModel.step] in E.
  - destruct (ready o i t w) eqn:ER; [|discriminate]. injection E as E. eapply inv_round; eauto.
  - destruct (s_up (w_s w) && s_en (w_s w)) eqn:EE; [|discriminate]. apply andb_prop in EE. destruct EE as [_ EN]. destruct (w_cs w) as [|m r] eqn:CS; [discriminate|].
    injection E as E. unfold put_s in E. destruct (input idsize m (w_s w)) as [[s f]| | |] eqn:EI; try discriminate. injection E as <-. eapply inv_input; eauto.
  - destruct (s_up (w_s w) && s_en (w_s w) && is_nil (w_cs w) && negb (c_up (w_c w))) eqn:EE; [|discriminate]. injection E as <-.
    repeat (apply andb_prop in EE; destruct EE as [EE ?]). eapply inv_eof; eauto; [destruct (c_up (w_c w)); [discriminate|auto]|destruct (w_cs w); [auto|discriminate]].
  - destruct (s_job (w_s w)) as [j|] eqn:EJ; [|discriminate]. destruct (f_out j) eqn:EO; [discriminate|]. injection E as <-.
    eapply (inv_look _ _ _ _ _ _ _ PL FILES TREE fr w j th); eauto.
  - destruct (s_job (w_s w)) as [j|] eqn:EJ; [|discriminate]. destruct (f_out j) as [[|d r]|] eqn:EO; try discriminate. injection E as E. unfold put_s in E.
    destruct (filter_line idsize j d r (w_s w)) as [[s f]| | |] eqn:EI; try discriminate. injection E as <-. eapply inv_line; eauto.
  - destruct (s_job (w_s w)) as [j|] eqn:EJ; [|discriminate]. destruct (f_out j) as [[|d r]|] eqn:EO; try discriminate. injection E as E. unfold put_s in E.
    destruct (filter_end j (w_s w)) as [s f] eqn:EI. injection E as <-. eapply inv_fend; eauto.
  - destruct (nth_error (s_run (w_s w)) n) as [d|] eqn:EN; [|discriminate]. injection E as E. unfold put_s in E.
    destruct (store_line _ _ _ _ _ _) as [[s f]| | |] eqn:EI; try discriminate. injection E as <-. eapply inv_store; eauto.
  - destruct (s_mrun (w_s w)) as [|d r] eqn:EN; [discriminate|]. injection E as E. unfold put_s in E.
    destruct (meta_line _ _) as [[s f]| | |] eqn:EI; try discriminate. injection E as <-. eapply inv_meta; eauto.
  - injection E as <-. eapply inv_other; eauto.
Qed.

Lemma inv_start0 fr : inv fr (start reads arch).
Proof.
  exists [], [], [], []. split; [|split; [intros _; auto|intros _; exists [], [], [], []]].
  - constructor; cbn; auto; try tauto; try discriminate; [apply cov_nil; constructor|apply incl_refl].
  - constructor; cbn; auto; try tauto; try discriminate. apply ph_data; auto. unfold quiet. cbn. auto 7.
Qed.

Lemma inv_reach (fr : Prop) (ok : label -> Prop) w : (fr -> forall l, ok l -> tree_new idsize tree l) -> reach ok reads arch w -> inv fr w.
Proof.
  intros OK R. induction R as [|w l w' R IH L AL E]; [apply inv_start0|]. eapply inv_step; eauto.
Qed.

(* ---- safety ---- *)
Lemma missing_prefix (K : answers) : forall n, (n <= List.length (missing K))%nat -> exists K1 K2, K = K1 ++ K2 /\ List.length (missing K1) = n.
Proof.
  induction K as [|[x b] K IH]; intros n H.
  - exists [], []. cbn in *. split; auto. lia.
  - destruct n as [|n]. { exists [], ((x, b) :: K). auto. }
    unfold missing in H. cbn in H. destruct b; cbn in H.
    + destruct (IH (S n) H) as (K1 & K2 & -> & E). exists ((x, true) :: K1), K2. auto.
    + destruct (IH n) as (K1 & K2 & -> & E). { unfold missing. lia. } exists ((x, false) :: K1), K2. split; auto. cbn. unfold missing in E. rewrite E. auto.
Qed.

Lemma bodies_app_chunk d : Forall (fun b : bytes => b <> []) d -> forall cur l,
  bodies cur (d ++ [] :: l) = (let (a, b) := bodies [] l in ((cur ++ List.concat d) :: a, b)).
Proof.
  induction 1 as [|b d B F IH]; intros cur l; cbn.
  - rewrite app_nil_r. auto.
  - destruct b as [|b0 b]; [tauto|]. rewrite IH. cbn. destruct (bodies [] l). rewrite <- app_assoc. auto.
Qed.
Lemma bodies_part d : Forall (fun b : bytes => b <> []) d -> forall cur, bodies cur d = ([], cur ++ List.concat d).
Proof.
  induction 1 as [|b d B F IH]; intros cur; cbn.
  - rewrite app_nil_r. auto.
  - destruct b as [|b0 b]; [tauto|]. rewrite IH. cbn. rewrite <- app_assoc. auto.
Qed.

(* a beginning of the frames of some objects *)
Lemma in_turn_part L : Forall fine_data L -> forall s t, s ++ t = List.concat (map chunks L) -> in_turn (bodies [] s) L.
Proof.
  induction 1 as [|x L [N F] FL IH]; intros s t E.
  - cbn in E. apply app_eq_nil in E. destruct E as [-> ->]. exists 0%nat. cbn. auto.
  - cbn in E. unfold chunks at 1 in E. rewrite <- app_assoc in E. cbn in E.
    assert (G : (exists q, j_data x = s ++ q) \/ exists s', s = j_data x ++ [] :: s' /\ s' ++ t = List.concat (map chunks L)).
    { clear - E F. revert s E. induction F as [|b d B F IHF]; intros s E; cbn in *.
      - destruct s as [|c s]; [left; eexists; reflexivity|]. cbn in E. injection E as -> E. right. eauto.
      - destruct s as [|c s]; [left; eexists; reflexivity|]. cbn in E. injection E as -> E. destruct (IHF s E) as [(q & ->)|(s' & -> & E')]; [left; exists q; auto|right; exists s'; auto]. }
    destruct G as [(q & G)|(s' & -> & E')].
    + assert (FS : Forall (fun b : bytes => b <> []) s) by (rewrite G in F; apply Forall_app in F; tauto).
      rewrite (bodies_part s FS). exists 0%nat. cbn. split; [lia|]. split; auto. exists (List.concat q). unfold content. rewrite G, concat_app. auto.
    + rewrite bodies_app_chunk by auto. destruct (IH s' t E') as (n & HN & H1 & H2). destruct (bodies [] s') as [a b]. cbn in *.
      exists (S n). cbn. split; [lia|]. split; [|exact H2]. rewrite H1. auto.
Qed.
Lemma in_turn_more t L L' : in_turn t L -> Forall fine_data L' -> in_turn t (L ++ L').
Proof.
  intros (n & HN & H1 & H2) F. exists n. rewrite app_length. split; [lia|]. split.
  - rewrite firstn_app. replace (n - List.length L)%nat with 0%nat by lia. cbn. rewrite app_nil_r. auto.
  - destruct (nth_error L n) eqn:E.
    + rewrite nth_error_app1; [|apply nth_error_Some; congruence]. rewrite E. auto.
    + apply nth_error_None in E. rewrite nth_error_app2 by lia. rewrite H2. destruct (nth_error L' (n - List.length L)); auto. exists (content s). auto.
Qed.
Lemma bodies_all L : Forall fine_data L -> bodies [] (List.concat (map chunks L)) = (map content L, []).
Proof.
  induction 1 as [|x L [N F] FL IH]; auto. cbn. unfold chunks at 1. rewrite <- app_assoc. cbn. rewrite bodies_app_chunk by auto. rewrite IH. auto.
Qed.

Lemma ids_of_app a b : ids_of (a ++ b) = ids_of a ++ ids_of b.
Proof. apply filter_app. Qed.
Lemma covers_ids P K : covers idsize P K -> 16 <= idsize <= 64 -> ids_of P = map key (missing K).
Proof.
  intros H SZ. induction H as [K HK|x P L K HL HN DX HC IH|q P L K HQ HL HT HC IH|L HL].
  - rewrite there_missing; auto.
  - rewrite missing_app, (there_missing L) by auto. unfold ids_of. cbn [filter]. replace (len (key x)) with idsize by (symmetry; apply cut_len; lia). replace (16 <=? idsize) with true by lia.
    unfold missing at 1. cbn. fold (missing K). f_equal. apply IH.
  - rewrite missing_app, (there_missing L) by auto. unfold ids_of. cbn [filter app map]. replace (16 <=? len q) with false; [apply IH|].
    rewrite HQ. unfold len at 1. rewrite be_enc_length. auto.
  - rewrite missing_app, (there_missing L) by auto. auto.
Qed.

Lemma no_end L : (forall x, In x L -> len (j_dig x) = 64) -> filter (fun x => negb (len (j_dig x) =? 0)) L = L.
Proof. intros H. apply filter_every. intros x IX. rewrite (H x IX). auto. Qed.

(* the answers without the mark *)
Definition marked (L : list subj) : list subj := filter (fun x => negb (len (j_dig x) =? 0)) L.
Lemma drop_end (B : answers) rest : map fst B ++ rest = all tree reads -> ~ In (theend, false) B ->
  exists B' r', map fst B' ++ r' = List.concat reads ++ [tree] /\ missing B' = missing B /\ (forall e, In e B' -> In e B) /\ marked (map fst B) = map fst B'.
Proof.
  intros E N. rewrite all_split in E. destruct rest as [|y rest] using rev_ind.
  - rewrite app_nil_r in E. destruct B as [|[z b] B] using rev_ind; [destruct (List.concat reads); discriminate|]. clear IHB.
    rewrite map_app in E. cbn in E. apply app_inj_tail in E. destruct E as [E1 E2]. subst z.
    destruct b; [|exfalso; apply N; rewrite in_app_iff; cbn; auto].
    exists B, []. rewrite app_nil_r. split; auto. split; [rewrite missing_app; cbn; rewrite app_nil_r; auto|]. split; [intros e; rewrite in_app_iff; auto|].
    rewrite map_app. unfold marked. rewrite filter_app. cbn. rewrite app_nil_r. apply no_end. intros x IX. eapply fine_dig; eauto. rewrite <- E1. auto.
  - clear IHrest. rewrite app_assoc in E. apply app_inj_tail in E. destruct E as [E1 E2]. exists B, rest. repeat split; auto.
    apply no_end. intros x IX. eapply fine_dig; eauto. rewrite <- E1, in_app_iff. auto.
Qed.

Lemma fine_missing w A K U D : core w A K U D -> Forall fine_data (missing (A ++ K)).
Proof.
  intros C. apply Forall_forall. intros x IX. apply in_missing in IX.
  destruct (in_all sha tree reads FILES TREE x) as [->|(_ & _ & F)]; auto.
  - eapply in_all_A; eauto. rewrite in_app_iff in IX. destruct IX as [IX|IX]; [left|right]; apply in_map_iff; exists (x, false); auto.
  - exfalso. apply (i_end _ _ _ _ _ _ _ _ _ C). auto.
Qed.

Lemma asked_stands o L : Forall2 (stands idsize) o L ->
  Forall2 (fun d x => cut idsize d = key x) (filter (fun d => negb (len d =? 0)) o) (filter (fun x => negb (len (j_dig x) =? 0)) L).
Proof.
  induction 1 as [|d x o L S H IH]; cbn; auto. destruct S as [[-> ->]|(S1 & S2 & S3 & S4)]; auto.
  assert (E : len d =? 0 = false). { apply N.eqb_neq. intros E. apply S1. apply len_0. auto. }
  rewrite E. assert (E' : len (j_dig x) =? 0 = false).
  { apply N.eqb_neq. intros Z. apply len_0 in Z. pose proof (pl_size _ _ _ _ PL) as SZ. assert (L0 : len (cut idsize d) = idsize) by (apply cut_len; lia).
    rewrite S4 in L0. unfold StowSpec.key in L0. rewrite Z in L0. unfold cut in L0. rewrite firstn_nil, len_nil in L0. lia. }
  rewrite E'. cbn. constructor; auto.
Qed.

Lemma all_asked L rest : L ++ rest = all tree reads -> exists r', filter (fun x => negb (len (j_dig x) =? 0)) L ++ r' = List.concat reads ++ [tree].
Proof.
  intros E. rewrite all_split in E. destruct rest as [|y rest] using rev_ind.
  - rewrite app_nil_r in E. subst L. exists []. rewrite filter_app, app_nil_r. cbn. rewrite app_nil_r. apply no_end. intros x IX. eapply fine_dig; eauto.
  - clear IHrest. rewrite app_assoc in E. apply app_inj_tail in E. destruct E as [E _]. exists rest. rewrite no_end; auto.
    intros x IX. eapply fine_dig; eauto. rewrite <- E, in_app_iff. auto.
Qed.

Lemma truth_sub w A K U D B' : core w A K U D -> (forall e, In e B' -> In e (A ++ K)) -> ~ In (theend, true) B' -> truthful idsize arch (s_arch (w_s w)) B'.
Proof.
  intros C S N x. split; intros IX.
  - apply (i_th _ _ _ _ _ _ _ _ _ C); auto. intros ->. auto.
  - apply (i_ms _ _ _ _ _ _ _ _ _ C); auto.
Qed.

Lemma not_end_in (B : answers) r b : map fst B ++ r = List.concat reads ++ [tree] -> ~ In (theend, b) B.
Proof.
  intros E IX. assert (IE : In theend (List.concat reads ++ [tree])). { rewrite <- E, in_app_iff. left. apply in_map_iff. exists (theend, b). auto. }
  apply (fine_dig sha tree reads FILES TREE) in IE. cbn in IE. discriminate.
Qed.

Lemma exchange_lemma (ok : label -> Prop) w : reach ok reads arch w ->
  exists ans rest, map fst ans ++ rest = List.concat reads ++ [tree] /\
    truthful idsize arch (s_arch (w_s w)) ans /\
    reported (w_hsc w) = map key (missing ans) /\
    in_turn (transfers (w_hcs w)) (missing ans) /\
    exists wait more, map fst ans ++ wait ++ more = List.concat reads ++ [tree] /\ Forall2 (fun d x => cut idsize d = key x) (asked (w_hcs w)) (map fst ans ++ wait).
Proof.
  intros R. destruct (inv_reach False ok w) as (A & K & U & D & C & _ & _); [tauto|auto|].
  pose proof (pl_size _ _ _ _ PL) as SZ.
  (* what is reported *)
  assert (RP : reported (w_hsc w) = map key (missing A) ++ ids_of (pays (w_sc w))).
  { pose proof (i_rep _ _ _ _ _ _ _ _ _ C) as RP. pose proof (covers_ids _ _ (i_cov _ _ _ _ _ _ _ _ _ C) SZ) as CI. rewrite ids_of_app in CI.
    rewrite missing_app, map_app, <- CI, app_assoc in RP. apply app_inv_tail in RP. auto. }
  destruct (missing_prefix K (List.length (ids_of (pays (w_sc w))))) as (K1 & K2 & EK & LK).
  { pose proof (covers_ids _ _ (i_cov _ _ _ _ _ _ _ _ _ C) SZ) as CI. rewrite <- (map_length key), <- CI, ids_of_app, app_length. lia. }
  assert (RP1 : ids_of (pays (w_sc w)) = map key (missing K1)).
  { pose proof (covers_ids _ _ (i_cov _ _ _ _ _ _ _ _ _ C) SZ) as CI. rewrite ids_of_app, EK, missing_app, map_app in CI.
    assert (L2 : List.length (ids_of (pays (w_sc w))) = List.length (map key (missing K1))) by (rewrite map_length; auto).
    revert CI L2. generalize (ids_of (pays (w_sc w))) (map key (missing K1)). intros a b. revert b. induction a as [|u a IHa]; intros [|v b] CI L2; cbn in L2; try discriminate; auto.
    cbn in CI. injection CI as -> CI. f_equal. apply IHa; auto. }
  pose proof (i_all _ _ _ _ _ _ _ _ _ C) as AL.
  assert (AL1 : map fst (A ++ K1) ++ (map fst K2 ++ U ++ c_subj (w_c w) ++ unread tree (w_c w)) = all tree reads).
  { rewrite <- AL, EK, !map_app, <- !app_assoc. auto. }
  assert (SUB : forall e, In e (A ++ K1) -> In e (A ++ K)). { intros e. rewrite EK, !in_app_iff. tauto. }
  destruct (drop_end _ _ AL1) as (B & r & B1 & B2 & B3 & B4). { intros IX. apply (i_end _ _ _ _ _ _ _ _ _ C). auto. }
  exists B, r. split; auto. split; [|split; [|split]].
  - eapply truth_sub; eauto. eapply not_end_in; eauto.
  - rewrite B2, RP, RP1, missing_app, map_app. auto.
  - rewrite B2, missing_app. apply in_turn_more.
    + pose proof (fine_missing _ _ _ _ _ C) as FM. rewrite missing_app in FM. apply Forall_app in FM. destruct FM as [FM _].
      pose proof (i_get _ _ _ _ _ _ _ _ _ C) as G. rewrite G, app_assoc in FM |- *. apply Forall_app in FM. destruct FM as [FM1 FM2].
      apply in_turn_more; auto. eapply in_turn_part; eauto. apply (i_hist _ _ _ _ _ _ _ _ _ C).
    + pose proof (fine_missing _ _ _ _ _ C) as FM. rewrite EK, !missing_app in FM. apply Forall_app in FM. destruct FM as [_ FM]. apply Forall_app in FM. tauto.
  - pose proof (i_off _ _ _ _ _ _ _ _ _ C) as OF. pose proof (asked_stands _ _ OF) as AS.
    assert (E2 : (map fst A ++ map fst K ++ U) ++ c_subj (w_c w) ++ unread tree (w_c w) = all tree reads) by (rewrite <- AL, <- !app_assoc; auto).
    destruct (all_asked _ _ E2) as (more & E3). fold (marked (map fst A ++ map fst K ++ U)) in E3, AS.
    assert (E4 : marked (map fst A ++ map fst K ++ U) = map fst B ++ marked (map fst K2 ++ U)).
    { rewrite <- B4. rewrite EK, map_app, map_app. unfold marked. rewrite !filter_app, <- !app_assoc. auto. }
    rewrite E4 in E3, AS. exists (marked (map fst K2 ++ U)), more. rewrite app_assoc. auto.
Qed.

(* ---- the end ---- *)
Lemma changes_tree D : changes idsize sha (D ++ [tree]) = changes idsize sha D.
Proof.
  rewrite changes_app. cbn. destruct TREE as (_ & _ & _ & E). unfold StowSpec.key. rewrite E, bytes_eqb_refl. apply app_nil_r.
Qed.

Lemma stowed_lemma w : reach (tree_new idsize tree) reads arch w -> c_up (w_c w) = false ->
  exists ans, map fst ans = List.concat reads ++ [tree] /\
    truthful idsize arch (s_arch (w_s w)) ans /\
    reported (w_hsc w) = map key (missing ans) /\
    transfers (w_hcs w) = (map content (missing ans), []) /\
    (forall x, In x (missing ans) -> In (cut idsize (sha (content x))) (s_arch (w_s w))) /\
    metas (w_hcs w) = j_dig tree :: meta_text (changes idsize sha (missing ans)) ++ [[]] /\
    Forall2 (fun d x => cut idsize d = key x) (asked (w_hcs w)) (map fst ans) /\
    s_run (w_s w) = [] /\ s_store (w_s w) = None /\ s_meta (w_s w) = None /\ s_mrun (w_s w) = [].
Proof.
  intros R UP. destruct (inv_reach True (tree_new idsize tree) w) as (A & K & U & D & C & _ & F); [auto|auto|].
  destruct (F Logic.I) as (T & R0 & X & Y & H). clear F. pose proof (pl_size _ _ _ _ PL) as SZ.
  pose proof (f_ph _ _ _ _ _ _ _ _ _ _ _ _ _ _ H) as P.
  inversion P as [Q1 Q2|Q1 Q2 Q3|l Q1 Q2 Q3 Q4 Q5 Q6 Q7 Q8 Q9|? Q1 Q2 Q3 Q4 Q5 Q6 Q7 Q8|? Q1 Q2 Q3 Q4 Q5 Q6 Q7|Q1 Q2 Q3 Q4 Q5 Q6 Q7 Q8]; try congruence.
  { destruct Q2 as (_ & _ & _ & _ & _ & Q2 & _). congruence. }
  { destruct Q3 as (_ & _ & _ & _ & _ & Q3 & _). congruence. }
  subst T. destruct (tree_done _ _ _ _ _ FILES TREE _ _ _ _ _ _ _ _ _ C (f_ack _ _ _ _ _ _ _ _ _ _ _ _ _ _ H) eq_refl) as (E1 & E2 & E3 & EG & IT). subst R0 X Y.
  pose proof (i_all _ _ _ _ _ _ _ _ _ C) as AL.
  assert (ITA : In tree (map fst A)). { apply in_map_iff. exists (tree, false). auto. }
  pose proof (tree_last _ _ _ FILES TREE _ _ AL ITA) as TL.
  assert (MK : missing K = []).
  { destruct (missing K) as [|y l] eqn:EM; auto. exfalso. assert (IY : In (y, false) K) by (apply in_missing; rewrite EM; cbn; auto).
    assert (IK : In y (map fst K)). { apply in_map_iff. exists (y, false). auto. }
    assert (y = theend). { destruct TL as [TL|TL]; [apply app_eq_nil in TL; destruct TL as [TL _]; rewrite TL in IK; contradiction|].
      assert (IE : In y [theend]) by (rewrite <- TL, in_app_iff; auto). cbn in IE. intuition. }
    subst y. apply (i_end _ _ _ _ _ _ _ _ _ C). rewrite in_app_iff. auto. }
  destruct (drop_end _ _ AL) as (B & r & B1 & B2 & B3 & B4). { intros IX. apply (i_end _ _ _ _ _ _ _ _ _ C). rewrite in_app_iff. auto. }
  assert (r = []) as ->.
  { eapply app_last; [| |exact B1].
    - intros IX. rewrite Forall_forall in FILES. apply FILES in IX. destruct IX as [IX _]. destruct TREE as (TX & _). congruence.
    - rewrite <- B4. unfold marked. apply filter_In. split; auto. destruct TREE as (_ & TX & _). rewrite TX. auto. }
  rewrite app_nil_r in B1. pose proof (f_ack _ _ _ _ _ _ _ _ _ _ _ _ _ _ H) as AK. cbn in AK.
  pose proof (i_get _ _ _ _ _ _ _ _ _ C) as G. rewrite EG, AK, app_nil_r in G.
  pose proof (f_stream _ _ _ _ _ _ _ _ _ _ _ _ _ _ H) as ST. cbn in ST. apply app_eq_nil in ST. destruct ST as [ST1 ST]. apply app_eq_nil in ST. destruct ST as [_ ST3].
  exists B. split; auto. split; [|split; [|split; [|split; [|split; [|split; [|split; [|split; [|split]]]]]]]]; auto.
  - eapply truth_sub; eauto; [intros e IE; rewrite in_app_iff; auto|]. eapply not_end_in. rewrite app_nil_r. eauto.
  - pose proof (i_rep _ _ _ _ _ _ _ _ _ C) as RP. pose proof (covers_ids _ _ (i_cov _ _ _ _ _ _ _ _ _ C) SZ) as CI.
    rewrite ids_of_app, MK in CI. cbn in CI. apply app_eq_nil in CI. destruct CI as [_ CI]. rewrite CI, app_nil_r, missing_app, MK, app_nil_r in RP. rewrite B2. auto.
  - rewrite B2, G. unfold transfers. pose proof (i_hist _ _ _ _ _ _ _ _ _ C) as HI. rewrite AK, ST3, app_nil_r in HI. rewrite HI. apply bodies_all.
    pose proof (fine_missing _ _ _ _ _ C) as FM. rewrite missing_app, MK, app_nil_r, G in FM. auto.
  - intros x IX. apply (f_arc _ _ _ _ _ _ _ _ _ _ _ _ _ _ H). rewrite app_nil_r, <- G, <- B2. auto.
  - rewrite B2, G, changes_tree. exact Q2.
  - rewrite <- B4. pose proof (asked_stands _ _ (i_off _ _ _ _ _ _ _ _ _ C)) as AS. fold (marked (map fst A ++ map fst K ++ U)) in AS.
    replace (marked (map fst A)) with (marked (map fst A ++ map fst K ++ U)); auto.
    unfold marked. rewrite filter_app. replace (filter _ (map fst K ++ U)) with (@nil subj); [apply app_nil_r|].
    destruct (map fst K ++ U) as [|y l] eqn:EL; auto. destruct TL as [TL|TL]; rewrite app_assoc, EL in TL; cbn in TL; [discriminate|]. injection TL as -> TL.
    apply app_eq_nil in TL. destruct TL as [-> _]. auto.
  - rewrite (f_X _ _ _ _ _ _ _ _ _ _ _ _ _ _ H). auto.
  - destruct (s_store (w_s w)) as [d|] eqn:ES; auto. destruct (f_store _ _ _ _ _ _ _ _ _ _ _ _ _ _ H _ ES) as [N _]. unfold held in ST1. rewrite ES in ST1. congruence.
Qed.

(* ---- nothing fails ---- *)
Lemma in_ok w m r : inv True w -> w_sc w = m :: r -> c_up (w_c w) = true ->
  exists c, stevedore_in m (w_c w) = Ok c /\ c_tree c = c_tree (w_c w) /\ (c_up c = true \/ exists p, m = RMeta p).
Proof.
  intros (A & K & U & D & C & I & F) SC UP. destruct (F Logic.I) as (T & R & X & Y & H). clear F. pose proof (pl_size _ _ _ _ PL) as SZ.
  destruct m as [|p|p|p]; cbn.
  - eauto 6.
  - pose proof (i_cov _ _ _ _ _ _ _ _ _ C) as COV. rewrite SC in COV. cbn in COV.
    destruct (filter_resp_ok idsize SZ p _ _ U (w_c w) COV) as (K1 & K2 & m & n & EK & COV2 & E2 & _); auto.
    + intros IE. eapply core_end_K; eauto.
    + intros x IX. eapply core_K64; eauto.
    + apply C.
    + rewrite E2. eexists; split; [reflexivity|cbn; auto].
  - pose proof (f_R _ _ _ _ _ _ _ _ _ _ _ _ _ _ H) as RR. rewrite SC in RR. cbn in RR. destruct R as [|x R]; [discriminate|]. cbn in RR. injection RR as -> RR.
    assert (T = []) as ->.
    { pose proof (tree_done _ _ _ _ _ FILES TREE _ _ _ _ _ _ _ _ _ C (f_ack _ _ _ _ _ _ _ _ _ _ _ _ _ _ H)) as TD.
      pose proof (f_ph _ _ _ _ _ _ _ _ _ _ _ _ _ _ H) as P. destruct P; auto; exfalso; destruct TD as (TD & _); auto; discriminate. }
    pose proof (f_ack _ _ _ _ _ _ _ _ _ _ _ _ _ _ H) as AK. cbn in AK. unfold data_resp. rewrite AK.
    rewrite (behind_id _ _ _ _ PL). unfold metadata, enable, set_meta. cbn [c_up]. rewrite UP.
    destruct (is_tree x) eqn:TX; [|eexists; split; [reflexivity|cbn; auto]].
    assert (x = tree) as ->.
    { eapply is_tree_all; eauto. eapply in_all_A; eauto. left. apply in_map_iff. exists (x, false). split; auto. apply in_missing. rewrite (i_get _ _ _ _ _ _ _ _ _ C), AK.
      rewrite in_app_iff. cbn. auto. }
    rewrite (filed_len _ _ _ _ PL). unfold filed. destruct TREE as (_ & _ & _ & ->). rewrite bytes_eqb_refl. eexists; split; [reflexivity|cbn; auto].
  - rewrite UP. eexists; split; [reflexivity|cbn; eauto].
Qed.

Lemma up_srv w : inv True w -> c_up (w_c w) = true -> s_up (w_s w) = true.
Proof.
  intros (A & K & U & D & C & I & F) UP. destruct (F Logic.I) as (T & R & X & Y & H).
  pose proof (f_ph _ _ _ _ _ _ _ _ _ _ _ _ _ _ H) as P. inversion P; auto; try congruence; match goal with Q : quiet w |- _ => apply Q end.
Qed.

Lemma round_ok o i t w : inv True w -> c_up (w_c w) = true -> ready o i t w = true -> exists w', round o i t w = Ok w'.
Proof.
  intros I UP RD. unfold StowModel.round.
  assert (G : exists c f, (if o then stevedore_out meta_text (w_c w) else (w_c w, [])) = (c, f) /\ inv True (mkW c (w_s w) (w_cs w ++ f) (w_sc w) (w_hcs w ++ f) (w_hsc w)) /\ c_up c = true).
  { destruct o.
    - unfold ready in RD. repeat (apply andb_prop in RD; destruct RD as [RD ?]). cbn in H2. apply andb_prop in H2. destruct H2 as [EN _].
      destruct (inv_out idsize prefix sha meta_text tree reads arch PL FILES TREE True w I EN UP) as [I1 _]. unfold out_w in I1.
      destruct (stevedore_out meta_text (w_c w)) as [c f] eqn:EO. exists c, f. split; auto. split; auto.
      apply out_cases in EO. destruct EO as (_ & _ & _ & _ & _ & _ & EO & _). congruence.
    - exists (w_c w), []. rewrite !app_nil_r. split; auto. destruct w; auto. }
  destruct G as (c & f & -> & I1 & UP1).
  assert (G : exists c2 sc, (match i, w_sc w with true, m :: r => let* c0 := stevedore_in m c in Ok (c0, r) | _, _ => Ok (c, w_sc w) end) = Ok (c2, sc) /\
     (c_tree c2 = c_tree c /\ (c_up c2 = true \/ c_tree c = None))).
  { destruct i; [|eauto 6]. destruct (w_sc w) as [|m r] eqn:SC; [eauto 6|].
    destruct (in_ok _ m r I1) as (c2 & E2 & E3 & E4); auto. cbn in E2, E3. rewrite E2. cbn. exists c2, r. split; auto. split; auto.
    destruct E4 as [E4|(p & ->)]; auto. right.
      destruct I1 as (A & K & U & D & C & _ & F). destruct (F Logic.I) as (T & R & X & Y & H).
      pose proof (f_ph _ _ _ _ _ _ _ _ _ _ _ _ _ _ H) as P. destruct (c_tree c) eqn:ET; auto. exfalso.
      assert (T = [tree]).
      { inversion P as [Q1 Q2|Q1 Q2 Q3|l0 Q1 Q2 Q3 Q4 Q5 Q6 Q7 Q8 Q9|? Q1 Q2 Q3 Q4 Q5 Q6 Q7 Q8|? Q1 Q2 Q3 Q4 Q5 Q6 Q7|Q1 Q2 Q3 Q4 Q5 Q6 Q7 Q8]; auto.
        destruct Q2 as (_ & _ & _ & _ & Q2 & _). discriminate. }
      destruct (tree_done _ _ _ _ _ FILES TREE _ _ _ _ _ _ _ _ _ C (f_ack _ _ _ _ _ _ _ _ _ _ _ _ _ _ H)) as (_ & _ & _ & _ & IT); auto.
      pose proof (i_all _ _ _ _ _ _ _ _ _ C) as AL. apply (tree_last _ _ _ FILES TREE) in AL; [|apply in_map_iff; exists (tree, false); auto].
      unfold unread in AL. cbn in AL. rewrite ET in AL. destruct AL as [AL|AL].
      + rewrite !app_assoc in AL. apply app_eq_nil in AL. destruct AL. discriminate.
      + apply (f_equal (@List.length subj)) in AL. rewrite !app_length in AL. cbn in AL. lia. }
  destruct G as (c2 & sc & -> & TR & G). cbn.
  assert (G' : exists c3, (if t then mtree_in tree c2 else Ok c2) = Ok c3).
  { destruct t; eauto. unfold mtree_in, enable. rewrite TR. destruct (c_tree c) as [[|l rd]|] eqn:ET; eauto.
    - cbn. destruct G as [G|G]; [rewrite G; eauto|discriminate].
    - destruct l; eauto. cbn. destruct G as [G|G]; [rewrite G; eauto|discriminate]. }
  destruct G' as (c3 & ->). cbn. eauto.
Qed.

Lemma input_ok w m r : inv True w -> w_cs w = m :: r -> exists s f, input idsize m (w_s w) = Ok (s, f).
Proof.
  intros (A & K & U & D & C & I & F) CS. destruct (F Logic.I) as (T & R & X & Y & H). clear F. destruct m as [d|d|d]; cbn [input].
  - assert (E : (len d =? 0) || ((idsize <=? len d) && (len d <=? 64)) = true).
    { pose proof (i_U _ _ _ _ _ _ _ _ _ C) as IU. rewrite CS in IU. cbn [offered] in IU. apply forall2_app_inv_r in IU. destruct IU as (? & U1 & _ & _ & IU).
      apply forall2_app_inv_r in IU. destruct IU as (? & U2 & _ & _ & IU). inversion IU as [|? z ? ? S ?]; subst. destruct S as [[-> _]|(_ & _ & S & _)]; auto. lia. }
    rewrite E. destruct (s_job (w_s w)); eauto. destruct (start_filter _) as [s f]. eauto.
  - destruct d as [|b d]; eauto. destruct (s_store (w_s w)) as [d|] eqn:ES; eauto. exfalso.
    pose proof (f_stream _ _ _ _ _ _ _ _ _ _ _ _ _ _ H) as ST. unfold held in ST. rewrite CS, ES in ST. cbn in ST.
    destruct Y as [|y Y]; [discriminate|]. assert (FY : fine_data y) by (eapply Y_fine; eauto; cbn; auto).
    cbn in ST. unfold chunks at 1 in ST. destruct FY as [N FY]. destruct (j_data y) as [|c l]; [tauto|]. cbn in ST. injection ST as ST _. inversion FY; subst. tauto.
  - destruct (s_meta (w_s w)); [destruct d|]; eauto.
Qed.

Lemma step_ok l w r : inv True w -> c_up (w_c w) = true -> step l w = Some r -> exists w', r = Ok w'.
Proof.
  intros I UP E. pose proof (up_srv _ I UP) as SU. destruct l as [o i t| | |th| | |n| |id]; cbn [StowModel.step] in E.
  - destruct (ready o i t w) eqn:ER; [|discriminate]. injection E as <-. apply round_ok; auto.
  - destruct (s_up (w_s w) && s_en (w_s w)); [|discriminate]. destruct (w_cs w) as [|m q] eqn:CS; [discriminate|].
    injection E as <-. destruct (input_ok _ _ _ I CS) as (s & f & ->). cbn. eauto.
  - destruct (_ && negb _); [|discriminate]. injection E as <-. cbn. eauto.
  - destruct (s_job (w_s w)) as [j|]; [|discriminate]. destruct (f_out j); [discriminate|]. injection E as <-. cbn. eauto.
  - destruct (s_job (w_s w)) as [j|] eqn:EJ; [|discriminate]. destruct (f_out j) as [[|d q]|] eqn:EO; try discriminate. injection E as <-.
    unfold filter_line. assert (EL : (16 <=? len d) && (len d <=? 64) = true).
    { destruct I as (A & K & U & D & C & _). destruct (i_job _ _ _ _ _ _ _ _ _ C _ EJ) as (_ & _ & _ & J). rewrite EO in J. inversion J; subst. pose proof (pl_size _ _ _ _ PL). lia. }
    rewrite EL. cbn. eauto.
  - destruct (s_job (w_s w)) as [j|] eqn:EJ; [|discriminate]. destruct (f_out j) as [[|d q]|] eqn:EO; try discriminate. injection E as <-.
    unfold put_s. destruct (filter_end j (w_s w)) as [s f]. cbn. eauto.
  - destruct (nth_error (s_run (w_s w)) n) as [d|]; [|discriminate]. injection E as <-. unfold store_line. rewrite SU. cbn. eauto.
  - destruct (s_mrun (w_s w)) as [|d q]; [discriminate|]. injection E as <-. unfold meta_line. rewrite SU. cbn. eauto.
  - injection E as <-. cbn. eauto.
Qed.

(* ---- it goes on ---- *)
Definition ends (l : list bytes) : nat := List.length (filter (fun b => len b =? 0) l).
Lemma ends_app a b : ends (a ++ b) = (ends a + ends b)%nat.
Proof. unfold ends. rewrite filter_app. apply app_length. Qed.
Lemma ends_none d : Forall (fun b : bytes => b <> []) d -> ends d = 0%nat.
Proof.
  induction 1 as [|b d B F IH]; auto. unfold ends in *. cbn [filter]. destruct b; [tauto|]. rewrite len_cons. destruct (1 + len b =? 0) eqn:E; auto. lia.
Qed.
Lemma ends_chunks L : Forall fine_data L -> ends (List.concat (map chunks L)) = List.length L.
Proof.
  induction 1 as [|x L [N F] FL IH]; auto. cbn [map List.concat]. rewrite ends_app, IH. unfold chunks. rewrite ends_app, ends_none by auto. auto.
Qed.

Lemma goes_on w : inv True w -> c_up (w_c w) = true ->
  exists l w', not_other l /\ allowed idsize l w /\ step l w = Some (Ok w') /\ (~ In (key tree) (s_arch (w_s w)) -> tree_new idsize tree l).
Proof.
  intros I UP.
  assert (G : exists l r, not_other l /\ allowed idsize l w /\ step l w = Some r /\ (~ In (key tree) (s_arch (w_s w)) -> tree_new idsize tree l)).
  2:{ destruct G as (l & r & G1 & G2 & G3 & G4). destruct (step_ok _ _ _ I UP G3) as (w' & ->). eauto 7. }
  pose proof (up_srv _ I UP) as SU. destruct I as (A & K & U & D & C & ID & F). destruct (F Logic.I) as (T & R & X & Y & H). clear F.
  destruct (s_job (w_s w)) as [j|] eqn:EJ.
  { destruct (f_out j) as [[|d q]|] eqn:EO.
    - exists LEnd. cbn [StowModel.step not_other allowed tree_new]. rewrite EJ, EO. eauto 6.
    - exists LLine. cbn [StowModel.step not_other allowed tree_new]. rewrite EJ, EO. eauto 6.
    - pose (th := fun p => existsb (bytes_eqb p) (f_arch j)).
      assert (TH : forall p, th p = true <-> In p (f_arch j)).
      { intros p. unfold th. rewrite existsb_exists. split; [intros (q & IQ & EQ); apply bytes_eqb_true in EQ; congruence|intros IP; exists p; split; auto; apply bytes_eqb_refl]. }
      destruct (i_job _ _ _ _ _ _ _ _ _ C _ EJ) as (_ & _ & _ & J). rewrite EO in J. destruct J as (_ & _ & J & _).
      exists (LLook th). cbn [StowModel.step not_other allowed tree_new]. rewrite EJ, EO. eexists. split; auto. split; [|split; [reflexivity|]].
      + intros j' [= <-] d _. rewrite TH. auto.
      + intros N. destruct (th (key tree)) eqn:ET; auto. exfalso. apply N, J, TH. auto. }
  destruct (s_run (w_s w)) as [|d q] eqn:ER.
  2:{ exists (LStore 0). cbn [StowModel.step not_other allowed tree_new]. rewrite ER. cbn [nth_error]. eauto 6. }
  destruct (s_mrun (w_s w)) as [|d q] eqn:EM.
  2:{ exists LMeta. cbn [StowModel.step not_other allowed tree_new]. rewrite EM. eauto 6. }
  assert (X = []) as ->. { pose proof (f_X _ _ _ _ _ _ _ _ _ _ _ _ _ _ H) as HX. rewrite ER in HX. destruct X; [auto|discriminate]. }
  pose proof (f_en _ _ _ _ _ _ _ _ _ _ _ _ _ _ H) as EN. cbn in EN.
  destruct (w_cs w) as [|m q] eqn:CS.
  2:{ exists LInput. cbn [StowModel.step not_other allowed tree_new]. rewrite SU, EN, CS. cbn [andb]. eauto 6. }
  destruct (c_en (w_c w)) eqn:CE.
  { exists (LRound true false false). cbn [StowModel.step not_other allowed tree_new]. unfold ready. rewrite CE, UP, CS. cbn [implb orb andb is_nil negb]. eauto 6. }
  destruct (w_sc w) as [|m q] eqn:SC.
  2:{ exists (LRound false true false). cbn [StowModel.step not_other allowed tree_new]. unfold ready. rewrite CE, SC. cbn [implb orb andb is_nil negb]. eauto 6. }
  destruct (c_tree (w_c w)) as [q|] eqn:CT.
  { exists (LRound false false true). cbn [StowModel.step not_other allowed tree_new]. unfold ready. rewrite CE, CT. cbn [implb orb andb is_nil negb]. eauto 6. }
  (* all is quiet *)
  exfalso. destruct (f_E _ _ _ _ _ _ _ _ _ _ _ _ _ _ H CE) as (ES & MN & EG).
  pose proof (i_U _ _ _ _ _ _ _ _ _ C) as IU. rewrite EJ, (ID EJ), CS in IU. cbn in IU. inversion IU; subst U. clear IU.
  pose proof (i_all _ _ _ _ _ _ _ _ _ C) as AL. unfold unread in AL. rewrite ES, CT in AL. cbn in AL. rewrite app_nil_r in AL.
  pose proof (i_cov _ _ _ _ _ _ _ _ _ C) as COV. rewrite SC, EJ in COV. cbn in COV. inversion COV as [? TK| | |].
  assert (IE : In theend (map fst A)).
  { assert (IE : In theend (map fst A ++ map fst K)) by (rewrite AL; unfold all; rewrite in_app_iff; cbn; auto).
    rewrite in_app_iff in IE. destruct IE as [IE|IE]; auto. exfalso. eapply theend_in; eauto. }
  pose proof (f_R _ _ _ _ _ _ _ _ _ _ _ _ _ _ H) as RR. rewrite SC in RR. cbn in RR. destruct R as [|? R]; [|discriminate].
  pose proof (f_stream _ _ _ _ _ _ _ _ _ _ _ _ _ _ H) as ST. rewrite CS in ST. cbn in ST.
  assert (EY : ends (held (w_s w)) = 0%nat).
  { unfold held. destruct (s_store (w_s w)) as [d|] eqn:SS; auto. apply ends_none. destruct (f_store _ _ _ _ _ _ _ _ _ _ _ _ _ _ H _ SS). auto. }
  assert (FY : Forall fine_data Y). { apply Forall_forall. intros y IY. eapply Y_fine; eauto. }
  pose proof (ends_chunks _ FY) as EC. rewrite <- ST, ends_app, EY in EC.
  destruct (c_send (w_c w)) as [rr|] eqn:SN.
  - pose proof (f_W _ _ _ _ _ _ _ _ _ _ _ _ _ _ H IE) as W. rewrite SN in W. specialize (W ltac:(discriminate) CE). cbn in W.
    unfold rest in EC. rewrite SN, ends_app, (ends_none rr) in EC; [|eapply i_rest; eauto]. cbn in EC. lia.
  - unfold rest in EC. rewrite SN in EC. cbn in EC. destruct Y; [|discriminate]. specialize (EG eq_refl).
    pose proof (f_ack _ _ _ _ _ _ _ _ _ _ _ _ _ _ H) as AK. cbn in AK. rewrite app_nil_r in AK.
    pose proof (f_ph _ _ _ _ _ _ _ _ _ _ _ _ _ _ H) as P.
    inversion P as [Q1 Q2|Q1 Q2 Q3|l0 Q1 Q2 Q3 Q4 Q5 Q6 Q7 Q8 Q9|? Q1 Q2 Q3 Q4 Q5 Q6 Q7 Q8|? Q1 Q2 Q3 Q4 Q5 Q6 Q7|Q1 Q2 Q3 Q4 Q5 Q6 Q7 Q8]; try congruence.
    + match goal with E : [] = T |- _ => rewrite <- E in AK end. pose proof (i_get _ _ _ _ _ _ _ _ _ C) as G. rewrite AK, EG, !app_nil_r in G.
      assert (IT : In tree (map fst A ++ map fst K)) by (rewrite AL; unfold all; rewrite in_app_iff; cbn; auto).
      destruct (core_end_A _ _ _ _ _ FILES TREE _ _ _ _ _ C IE) as (EK & _). rewrite EK in IT. cbn in IT. rewrite app_nil_r in IT.
      apply in_map_iff in IT. destruct IT as ([y b] & EY' & IT). cbn in EY'. subst y. destruct b.
      * apply (f_new _ _ _ _ _ _ _ _ _ _ _ _ _ _ H). rewrite in_app_iff. auto.
      * apply in_missing in IT. rewrite G in IT. apply (i_D _ _ _ _ _ _ _ _ _ C) in IT. rewrite (tree_is _ _ TREE) in IT. discriminate.
    + rewrite CS in Q3. cbn in Q3. tauto.
    + rewrite SC in Q6. discriminate.
Qed.

Lemma no_failure_lemma w l r : reach (tree_new idsize tree) reads arch w -> c_up (w_c w) = true -> step l w = Some r -> exists w', r = Ok w'.
Proof. intros R. apply step_ok. eapply inv_reach; eauto. Qed.
Lemma goes_on_lemma w : reach (tree_new idsize tree) reads arch w -> c_up (w_c w) = true ->
  exists l w', not_other l /\ allowed idsize l w /\ step l w = Some (Ok w') /\ (~ In (key tree) (s_arch (w_s w)) -> tree_new idsize tree l).
Proof. intros R. apply goes_on. eapply inv_reach; eauto. Qed.
End Main.
