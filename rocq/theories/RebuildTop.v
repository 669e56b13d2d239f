(* Rebuilding: records, silos, archives *)
From Coq Require Import String Sorting.Sorted.
From Coq Require Import ZifyBool ZifyNat ZifyN.
From Verif Require Import Base BaseLemmas ListLemmas IndexModel HeaderModel HeaderSpec HeaderProofs
  InflateSpec InflateProofs GzipModel GzipSpec GzipProofs ProgModel StoreModel StoreSpec StoreHdr StoreGet
  RebuildModel RebuildSpec RebuildProofs RebuildMain.
Open Scope string_scope.
Open Scope list_scope.
Open Scope N_scope.

Section Top.
Variable C : conf.
Variable L : zlib.
Variable bufsiz : N.
Hypothesis CP : clean_prefix (c_prefix C).
Hypothesis CB : is_bytes (c_prefix C).
Hypothesis CN : 16 <= c_idsize C <= 64.
Hypothesis ZO : zlib_ok L.
Hypothesis ZR : zlib_roomy L.
Hypothesis BZ : bufsiz <= 65536.
Variable spare : bool.
Variable split : bytes -> list bytes.
Hypothesis DV : delivers split.
Notation prefix := (c_prefix C).
Notation rebuild := (RebuildModel.rebuild L).
Notation rebuild_pieces := (rebuild_pieces C L bufsiz spare).
Notation silo_members := (silo_members C L bufsiz spare split).
Notation in_head := (in_head L).

Lemma gunzip_ne f d r : gunzip f = Some (d, r) -> f <> [].
Proof. intros H ->. discriminate. Qed.

Lemma member_step n rb m x d : gunzip m = Some (d, []) -> (List.length (m ++ x) < S n)%nat ->
  (spare = true \/ len d < 65536) ->
  (List.length x < n)%nat /\ exists ps, List.concat ps = d /\ Forall (fun p => len p <= 65536) ps /\ Forall (small spare) ps /\
  silo_members (S n) rb (m ++ x) = bind (rebuild_pieces rb ps) (fun rb => silo_members n rb x).
Proof.
  intros G Hl SP. destruct (gunzip_split _ _ _ G) as (m' & E & GG). rewrite app_nil_r in E. subst m'.
  pose proof (gunzip_ne _ _ _ G) as NE. specialize (GG x). destruct (DV _ _ _ GG) as (D1 & D2). split.
  - rewrite app_length in Hl. destruct m; [congruence|]. cbn [List.length] in Hl. lia.
  - exists (split (m ++ x)). split; [exact D1|]. split; [exact D2|]. split.
    + destruct SP as [SP|SP]; [apply Forall_forall; intros; left; exact SP|]. rewrite <- D1 in SP. clear - SP.
      induction (split (m ++ x)) as [|p ps IH]; constructor; cbn [List.concat] in SP; rewrite len_app in SP; [right; lia|]. apply IH. lia.
    + cbn [RebuildModel.silo_members]. destruct (m ++ x) as [|c l] eqn:Q; [destruct m; discriminate|]. rewrite <- Q in *. rewrite GG. reflexivity.
Qed.

Lemma record_ok n rb base r w x : held prefix r w -> fits prefix bufsiz spare w -> in_head base [] rb ->
  (List.length (r ++ x) < n)%nat ->
  exists n' rb' r' w', silo_members n rb (r ++ x) = silo_members n' rb' x /\ (List.length x < n')%nat /\
    rewritten prefix r' w' /\ redone (c_idsize C) (z_sha L) w w' /\ in_head (base ++ r') [] rb'.
Proof.
  intros (H & B & -> & GH & W & GB & HC) (F1 & F2 & F3 & F4) I Hn. rewrite <- !app_assoc in *.
  destruct w as [hd data]. cbn [wr_hdr wr_data] in *.
  destruct n as [|n]; [lia|].
  destruct (member_step n rb H (B ++ crnlcrnl ++ x) _ GH Hn) as (Hn1 & ps1 & P1 & P1l & P1s & ->); [right; lia|].
  destruct (head_pieces C L bufsiz CP CB CN ZO ZR BZ spare base hd (len data) ps1 rb W (gunzip_bytes _ _ _ GH) F1 HC F2 I P1 P1s)
    as (rb1 & R1 & A1). rewrite R1. cbn [bind].
  destruct n as [|n]; [lia|].
  destruct (member_step n rb1 B (crnlcrnl ++ x) _ GB Hn1 F3) as (Hn2 & ps2 & P2 & P2l & P2s & ->).
  pose proof (gunzip_bytes _ _ _ GB) as DB.
  assert (BODY : exists hd' H' rb2, new_head C hd' H' /\ redone (c_idsize C) (z_sha L) (mkRec hd data) (mkRec hd' data) /\
     rebuild_pieces rb1 ps2 = Ok rb2 /\ closing C L bufsiz base H' data rb2).
  { destruct A1 as [(N & hd' & H' & S & NH & IB)|((v & V) & h1 & h2 & S & G1 & L1 & D1 & IF)].
    - destruct (body_pieces C L bufsiz CN ZR BZ spare base H' data [] [] ps2 rb1) as (rb2 & R2 & CL); auto; [rewrite P2; exact IB|].
      exists hd', H', rb2. split; [exact NH|]. split; [|auto]. split; [reflexivity|]. cbn [wr_hdr wr_data]. split; [auto|].
      intros v (f & X1 & X2 & _). exfalso. apply (N f X1 X2).
    - assert (DL : len data <= bufsiz).
      { destruct F4 as [F4|F4]; [|exact F4]. destruct V as (f & X1 & X2 & _). exfalso. apply (F4 f X1 X2). }
      destruct (fix_pieces C L bufsiz CB CN ZO ZR BZ spare base hd h1 h2 data ps2 rb1) as (rb2 & hd' & H' & M & NH & R2 & CL); auto.
      exists hd', H', rb2. split; [exact NH|]. split; [|auto]. split; [reflexivity|]. cbn [wr_hdr wr_data]. split; [|auto].
      intros N. destruct V as (f & X1 & X2 & _). exfalso. apply (N f X1 X2). }
  destruct BODY as (hd' & H' & rb2 & NH & RD & R2 & CL). rewrite R2. cbn [bind].
  destruct n as [|n]; [lia|].
  assert (GC : gunzip crnlcrnl = Some ([13; 10; 13; 10], [])) by (rewrite <- (app_nil_r crnlcrnl); apply crnl_gunzip).
  destruct (member_step n rb2 crnlcrnl x _ GC Hn2) as (Hn3 & ps3 & P3 & P3l & P3s & ->); [right; reflexivity|].
  destruct (close_pieces C L bufsiz CN BZ spare base H' data ps3 rb2 CL P3 P3s) as (rb3 & B' & R3 & (NB1 & NB2) & I3).
  rewrite R3. cbn [bind]. destruct NH as (N1 & N2 & N3 & N4).
  exists n, rb3, (H' ++ B' ++ crnlcrnl), (mkRec hd' data). split; [reflexivity|]. split; [exact Hn3|]. split; [|split; [exact RD|exact I3]].
  exists H', B'. cbn [wr_hdr wr_data]. auto 10.
Qed.

Lemma records_ok rs x : forall ws n rb base, Forall2 (held prefix) rs ws -> Forall (fits prefix bufsiz spare) ws -> in_head base [] rb ->
  (List.length (List.concat rs ++ x) < n)%nat ->
  exists n' rb' rs' ws', silo_members n rb (List.concat rs ++ x) = silo_members n' rb' x /\ (List.length x < n')%nat /\
    Forall2 (rewritten prefix) rs' ws' /\ Forall2 (redone (c_idsize C) (z_sha L)) ws ws' /\ in_head (base ++ List.concat rs') [] rb'.
Proof.
  induction rs as [|r rs IH]; intros ws n rb base F1 F2 I Hn; inversion F1; subst.
  - exists n, rb, [], []. cbn [List.concat app] in *. rewrite app_nil_r. auto.
  - inversion F2; subst. cbn [List.concat] in *. rewrite <- app_assoc in *.
    destruct (record_ok n rb base r y (List.concat rs ++ x)) as (n' & rb' & r' & w' & E & Hn' & R & D & I'); auto.
    rewrite E. destruct (IH l' n' rb' (base ++ r')) as (n2 & rb2 & rs' & ws' & E2 & Hn2 & R2 & D2 & I2); auto.
    exists n2, rb2, (r' :: rs'), (w' :: ws'). split; [exact E2|]. split; [exact Hn2|]. cbn [List.concat]. rewrite app_assoc. auto.
Qed.

Lemma silo_ok rb base b ws : in_head base [] rb -> contains (held prefix) b ws -> Forall (fits prefix bufsiz spare) ws ->
  exists rb' ws', rebuild_silo C L bufsiz spare split rb b = Ok rb' /\ contains (rewritten prefix) (b_out L rb') ws' /\
    Forall2 (redone (c_idsize C) (z_sha L)) ws ws' /\ in_head (b_out L rb') [] rb'.
Proof.
  intros (I1 & I2 & I3 & I4) (rs & -> & R) F. unfold rebuild_silo. 
  set (rb0 := mkRb L (b_state L rb) [] (b_hdr L rb) (b_fix L rb) (b_rlen L rb) (b_start L rb) (b_zs L rb) (b_in L rb) (b_sha L rb) (b_h L rb) (b_clen L rb)).
  destruct (records_ok rs [] ws (S (List.length (List.concat rs))) rb0 []) as (n' & rb' & rs' & ws' & E & Hn & R2 & D2 & J); auto.
  { unfold in_head, RebuildMain.in_head. cbn. auto. } { rewrite app_nil_r. lia. }
  rewrite app_nil_r in E. assert (Q : silo_members n' rb' [] = Ok rb') by (destruct n'; reflexivity). rewrite Q in E.
  cbn [app] in J. assert (O : b_out L rb' = List.concat rs') by apply J.
  exists rb', ws'. split; [exact E|]. rewrite O. split; [exists rs'; auto|]. auto.
Qed.

Notation good_file := (good_file prefix bufsiz spare).
Notation renewed := (renewed prefix bufsiz spare (c_idsize C) (z_sha L)).

Lemma files_ok files : forall rb base, in_head base [] rb -> Forall good_file files ->
  exists outs, rebuild_files C L bufsiz spare split rb files = Ok outs /\ Forall2 renewed files outs.
Proof.
  induction files as [|[b|] files IH]; intros rb base I F; [exists []; auto| |]; inversion F as [|? ? F1 F2]; subst; cbn [rebuild_files].
  - destruct F1 as (ws & W1 & W2). destruct (silo_ok rb base b ws I W1 W2) as (rb' & ws' & E & _ & _ & I').
    rewrite E. cbn [bind]. destruct (IH rb' _ I' F2) as (outs & E2 & R). rewrite E2. cbn [bind]. eexists. split; [reflexivity|].
    constructor; [|exact R]. intros us U1 U2. destruct (silo_ok rb base b us I U1 U2) as (rb2 & ws2 & E3 & R2 & D2 & _).
    assert (rb2 = rb') by congruence. subst rb2. exists ws2. auto.
  - destruct (IH rb base I F2) as (outs & E2 & R). rewrite E2. cbn [bind]. eexists. split; [reflexivity|]. constructor; [exact Logic.I|exact R].
Qed.

Theorem rebuild_ok files : Forall good_file files ->
  exists outs, main_rebuild C L bufsiz spare split files = Ok outs /\ Forall2 renewed files outs.
Proof. apply (files_ok files (rb_new L) []). unfold RebuildMain.in_head. cbn. auto. Qed.

(** * Archives as they are stored *)

Lemma strip_has hd hd' n v : stripped hd hd' -> lower (str n) <> lower (str "Content-Length-GZIP") -> lower (str n) <> lower (str "z") ->
  (has hd n v <-> has hd' n v).
Proof.
  intros (_ & S) N1 N2. split; intros (f & A & B & D); exists f; (split; [|auto]); apply S in A || apply S; [|tauto].
  split; [exact A|]. unfold dropped, named_as. rewrite B. tauto.
Qed.

Lemma strip_hasnt hd hd' n : stripped hd hd' -> lower (str n) <> lower (str "Content-Length-GZIP") -> lower (str n) <> lower (str "z") ->
  (hasnt hd n <-> hasnt hd' n).
Proof.
  intros (_ & S) N1 N2. split; intros H f A E; apply (H f); auto; apply S in A || apply S; [tauto|].
  split; [exact A|]. unfold dropped, named_as. rewrite E. tauto.
Qed.

Lemma strip_named n sha w w' : stripped (wr_hdr w) (wr_hdr w') -> wr_data w' = wr_data w -> named n sha w -> named n sha w'.
Proof.
  intros S D N. unfold named, kind_ok in *. rewrite D. pose proof S as (SI & _). rewrite SI.
  assert (T : forall v, has (wr_hdr w') "WARC-Type" v <-> has (wr_hdr w) "WARC-Type" v) by (intros v; symmetry; apply strip_has; auto; discriminate).
  assert (R : forall v, has (wr_hdr w') "WARC-Refers-To" v <-> has (wr_hdr w) "WARC-Refers-To" v) by (intros v; symmetry; apply strip_has; auto; discriminate).
  assert (G : forall v, has (wr_hdr w') "WARC-Segment-Number" v <-> has (wr_hdr w) "WARC-Segment-Number" v) by (intros v; symmetry; apply strip_has; auto; discriminate).
  assert (P : forall v, has (wr_hdr w') "WARC-Payload-Digest" v <-> has (wr_hdr w) "WARC-Payload-Digest" v) by (intros v; symmetry; apply strip_has; auto; discriminate).
  assert (G0 : hasnt (wr_hdr w') "WARC-Segment-Number" <-> hasnt (wr_hdr w) "WARC-Segment-Number") by (symmetry; apply strip_hasnt; auto; discriminate).
  assert (P0 : hasnt (wr_hdr w') "WARC-Payload-Digest" <-> hasnt (wr_hdr w) "WARC-Payload-Digest") by (symmetry; apply strip_hasnt; auto; discriminate).
  cbv zeta in *. setoid_rewrite T. setoid_rewrite G0. setoid_rewrite P0. setoid_rewrite R. setoid_rewrite G. setoid_rewrite P. exact N.
Qed.

Notation stored := (stored prefix bufsiz spare).

Lemma layout_contains o b l : layout C L o b l -> contains (held prefix) b (map snd l).
Proof.
  intros H. induction H as [|o r w s l R H (rs & E & F)]; [exists []; split; [reflexivity|constructor]|].
  exists (r :: rs). cbn [List.concat map snd]. split; [congruence|]. constructor; [|exact F].
  destruct R as (HH & B & E1 & (D & _) & _ & G & W & _ & _ & _ & GB & _). exists HH, B. auto.
Qed.

Lemma strip_len hd hd' : hsorted (h_fields hd) -> hsorted (h_fields hd') -> stripped hd hd' ->
  len (warc_text prefix hd') <= len (warc_text prefix hd).
Proof.
  intros S S' (EI & ST). rewrite <- !ser_text. change (hlen prefix hd' <= hlen prefix hd). rewrite !hlen_eq, EI.
  enough (X : forall l' l, hsorted l -> hsorted l' -> (forall f, In f l' -> In f l) -> fsum l' <= fsum l).
  { specialize (X (h_fields hd') (h_fields hd) S S'). assert (fsum (h_fields hd') <= fsum (h_fields hd)); [|lia].
    apply X. intros f A. apply ST in A. tauto. }
  clear. induction l' as [|f l' IH]; intros l S S' I.
  - unfold fsum at 1. cbn. lia.
  - assert (A : In f l) by (apply I; left; reflexivity). revert S I A. induction l as [|g l IHl]; intros S I A; [destruct A|].
    pose proof S as S0. apply StronglySorted_inv in S. apply StronglySorted_inv in S'. destruct A as [->|A].
    + assert (X : fsum l' <= fsum l).
      { apply IH; [tauto|tauto|]. intros h Q. destruct (I h (or_intror Q)) as [Z|Y]; [|exact Y].
        exfalso. destruct S' as (_ & S'). rewrite Forall_forall in S'. specialize (S' h Q). unfold name_lt in S'. rewrite Z, lex_refl in S'. discriminate. }
      unfold fsum in *. cbn [map fold_right]. lia.
    + assert (X : fsum (f :: l') <= fsum l).
      { apply IHl; [tauto| |exact A]. intros h Q. destruct (I h Q) as [Z|Y]; [|exact Y]. exfalso. rewrite <- Z in Q.
        destruct Q as [Z1|Q]; [rewrite <- Z1 in S0; apply (sorted_tail_ne _ _ S0 f A); reflexivity|].
        destruct S as (_ & S). rewrite Forall_forall in S. specialize (S f A). destruct S' as (_ & S'). rewrite Forall_forall in S'.
        specialize (S' g Q). unfold name_lt in *. rewrite lex_antisym, S in S'. discriminate. }
      unfold fsum in *. cbn [map fold_right] in *. lia.
Qed.

Lemma contains_layout ws ws' rs' : Forall2 (rewritten prefix) rs' ws' -> Forall2 (redone (c_idsize C) (z_sha L)) ws ws' ->
  Forall stored ws -> Forall (fun w => wf_header (wr_hdr w) /\ describes (z_sha L) (wr_hdr w) (wr_data w) /\ named (c_idsize C) (z_sha L) w) ws ->
  forall o, exists l', layout C L o (List.concat rs') l' /\ map snd l' = ws' /\
    Forall2 (fun w w' => wr_data w' = wr_data w /\ stripped (wr_hdr w) (wr_hdr w')) ws ws'.
Proof.
  intros R. revert ws. induction R as [|r w' rs' ws' R1 R IH]; intros ws D S K o; inversion D as [|x ? l ? D1 D2]; subst.
  - exists []. repeat split; constructor.
  - inversion S as [|? ? (S1 & S2 & S3) S4]; subst. inversion K as [|? ? (K1 & K2 & K3) K4]; subst.
    destruct (IH l D2 S4 K4 (o + len r)) as (l' & L1 & L2 & L3). exists ((o, w') :: l'). cbn [List.concat map snd].
    destruct D1 as (E1 & E2 & _). specialize (E2 S1).
    split; [|split; [congruence|constructor; auto]]. constructor; [|exact L1].
    destruct R1 as (HH & B & -> & G & W & A1 & LH & A2 & SY). exists HH, B.
    pose proof (strip_len (wr_hdr x) (wr_hdr w') (proj1 (proj2 K1)) (proj1 (proj2 W)) E2) as LT.
    split; [reflexivity|]. split; [|split; [apply (strip_named _ _ x); auto|]].
    { destruct K2 as (Q1 & Q2). rewrite E1. split; (apply (strip_has _ _ _ _ E2); [discriminate|discriminate|assumption]). }
    split; [exact G|]. split; [exact W|]. split; [lia|]. split; [lia|]. split; [exact A2|]. split; [|right; exact SY].
    pose proof (synced_gunzip B (wr_data w') [] SY) as X. rewrite app_nil_r in X. exact X.
Qed.

Theorem archive_ok b l : layout C L 0 b l -> Forall (fun a => stored (snd a)) l ->
  exists b' l', main_rebuild C L bufsiz spare split [Some b] = Ok [Some b'] /\ layout C L 0 b' l' /\ Forall2 same_but l l'.
Proof.
  intros H F. pose proof (layout_contains _ _ _ H) as HC.
  assert (FS : Forall stored (map snd l)) by (apply Forall_map; exact F).
  assert (FF : Forall (fits prefix bufsiz spare) (map snd l)) by (eapply Forall_impl; [|exact FS]; intros w (_ & _ & X); exact X).
  destruct (rebuild_ok [Some b]) as (outs & E & R). { constructor; [|constructor]. exists (map snd l). auto. }
  inversion R as [|? o ? os R1 R2]; subst. inversion R2; subst. destruct o as [b'|]; [|destruct R1].
  destruct (R1 _ HC FF) as (ws' & (rs' & -> & W1) & W2).
  destruct (contains_layout _ _ _ W1 W2 FS) with (o := 0) as (l' & L1 & L2 & L3).
  { clear - H. induction H as [|o r w s l R H IH]; constructor; auto. destruct R as (HH & B & _ & D & N & _ & W & _). auto. }
  exists (List.concat rs'), l'. split; [exact E|]. split; [exact L1|]. subst ws'. clear - L3. revert l' L3.
  induction l as [|a l IH]; intros l' H; destruct l' as [|a' l']; cbn [map] in H; inversion H; subst; constructor; auto.
Qed.

(* Without such fields the records are the same. *)
Lemma strip_same hd hd' : hsorted (h_fields hd) -> hsorted (h_fields hd') -> stripped hd hd' ->
  hasnt hd "Content-Length-GZIP" -> hasnt hd "z" -> hd' = hd.
Proof.
  intros S S' (EI & ST) N1 N2.
  assert (I : forall f, In f (h_fields hd') <-> In f (h_fields hd)).
  { intros f. rewrite ST. split; [tauto|]. intros A. split; [exact A|]. intros [X|X]; [apply (N1 f A X)|apply (N2 f A X)]. }
  destruct hd as [id l], hd' as [id' l']. cbn [h_fields h_id] in *. subst id'. f_equal. clear - S S' I.
  revert l' S' I. induction l as [|f l IH]; intros l' S' I.
  - destruct l' as [|g l']; [reflexivity|]. destruct (proj1 (I g)). left. reflexivity.
  - destruct l' as [|g l']; [destruct (proj2 (I f)); left; reflexivity|].
    assert (E : g = f).
    { destruct (proj1 (I g)) as [X|X]; [left; reflexivity|auto|]. destruct (proj2 (I f)) as [Y|Y]; [left; reflexivity|auto|].
      exfalso. apply StronglySorted_inv in S, S'. destruct S as (_ & S), S' as (_ & S'). rewrite Forall_forall in S, S'.
      specialize (S g X). specialize (S' f Y). unfold name_lt in *. rewrite lex_antisym, S in S'. discriminate. }
    subst g. f_equal. apply IH.
    + apply StronglySorted_inv in S. tauto.
    + apply StronglySorted_inv in S'. tauto.
    + intros h. split; intros Q.
      * destruct (proj1 (I h)) as [X|X]; [right; exact Q| |exact X]. subst h. exfalso. apply (sorted_tail_ne _ _ S' f Q). reflexivity.
      * destruct (proj2 (I h)) as [X|X]; [right; exact Q| |exact X]. subst h. exfalso. apply (sorted_tail_ne _ _ S f Q). reflexivity.
Qed.

Theorem archive_same b l : layout C L 0 b l -> Forall (fun a => stored (snd a)) l ->
  Forall (fun a => hasnt (wr_hdr (snd a)) "Content-Length-GZIP" /\ hasnt (wr_hdr (snd a)) "z") l ->
  exists b' l', main_rebuild C L bufsiz spare split [Some b] = Ok [Some b'] /\ layout C L 0 b' l' /\ map snd l' = map snd l.
Proof.
  intros H F N. destruct (archive_ok b l H F) as (b' & l' & E & H' & S). exists b', l'. split; [exact E|]. split; [exact H'|].
  assert (WF : forall o b l, layout C L o b l -> Forall (fun a => hsorted (h_fields (wr_hdr (snd a)))) l).
  { intros o b0 l0 X. induction X as [|o' r w s l1 R X IH]; constructor; auto. destruct R as (HH & B & _ & _ & _ & _ & W & _). apply W. }
  apply WF in H, H'. clear E F WF. induction S as [|a a' l l' (S1 & S2) S IH]; [reflexivity|]. cbn [map].
  inversion N as [|? ? (N1 & N2) N3]; subst. inversion H; subst. inversion H'; subst. f_equal; auto.
  destruct a as [o [hd d]], a' as [o' [hd' d']]. cbn [snd wr_hdr wr_data] in *. f_equal; [|exact S1]. apply strip_same; auto.
Qed.
End Top.
