(* From segments to whole commands. *)
From Coq Require Import String Permutation.
From Coq Require Import ZifyBool ZifyNat ZifyN.
From Verif Require Import Base BaseLemmas ListLemmas IndexModel IndexSpec HeaderModel HeaderSpec HeaderProofs
  InflateSpec InflateProofs GzipModel GzipSpec GzipProofs ProgModel StoreModel StoreSpec StoreSysModel StoreWp StoreSys StoreHdr
  StoreWrite StoreCommit StoreJob StoreCalls.
Open Scope string_scope.
Open Scope list_scope.
Open Scope N_scope.

Section Main.
Variable C : conf.
Variable L : zlib.
Hypothesis CO : conf_ok C.
Hypothesis ZO : zlib_ok L.
Variable D : death -> Prop.
Hypothesis DA : D DAbort.
Hypothesis DF : D DFuel.
Hypothesis DU : D DUB.
Hypothesis DX : D DExit.
Notation wpD := (wp (inv C L) D).
Notation prefix := (c_prefix C).

(** * Reading *)

Lemma lift_any {A B} (Q : B -> list N -> fs -> Prop) own s (r : res A) f :
  (forall a, r = Ok a -> wpD Q own s (f a)) -> wpD Q own s (bindp (lift r) f).
Proof. intros H. destruct r; cbn [lift bindp wp]; auto. Qed.

Ltac dif := match goal with |- wp _ _ _ _ _ (if ?b then _ else _) => destruct b end.

(* At the entry there is a header with that identifier. *)
Definition headed (s : fs) (e : ixent) (id : bytes) (hd : header) : Prop := exists b w bl bo,
  f_silo s (e_silo e) = Some (b, w) /\ Rsilo_ReadHeader C b (e_off e) = Ok (Some (hd, bl, bo)) /\ caseeq (h_id hd) id = true.

Lemma read_more b off t x : Rsilo_ReadHeader C b off = Ok (Some x) -> Rsilo_ReadHeader C (b ++ t) off = Ok (Some x).
Proof.
  unfold Rsilo_ReadHeader. intros H.
  assert (PG : exists t', file_read b off 4096 <> [] /\ file_read (b ++ t) off 4096 = file_read b off 4096 ++ t').
  { destruct (file_read b off 4096) as [|c l] eqn:E; [discriminate|]. unfold file_read in *.
    assert (X : (N.to_nat off < List.length b)%nat).
    { destruct (Nat.lt_ge_cases (N.to_nat off) (List.length b)); auto. rewrite skipn_all2 in E by auto. rewrite firstn_nil in E. discriminate. }
    rewrite skipn_app, firstn_app, E. eexists. split; [discriminate|reflexivity]. }
  destruct PG as (t' & NE & ->). destruct (file_read b off 4096) as [|c l] eqn:E; [congruence|]. cbn [app]. rewrite app_comm_cons.
  destruct (gunzip (c :: l)) as [[u rest]|] eqn:G; [|discriminate].
  destruct (gunzip_split _ _ _ G) as (m & Em & Gm). assert (EE : (c :: l) ++ t' = m ++ rest ++ t') by (rewrite Em, <- app_assoc; auto).
  rewrite EE, Gm. destruct (len u <=? 4096); cbn [guard bind] in *; [|discriminate].
  destruct (Gzip_ReadAa rest) as [bl| | |] eqn:A; try discriminate. cbn [bind] in H.
  assert (A' : Gzip_ReadAa (rest ++ t') = Ok bl).
  { revert A. unfold Gzip_ReadAa. destruct (Gzip_GoodAa rest) as [g| | |] eqn:GA; try discriminate. cbn [bind].
    destruct g; cbn [guard bind]; [|discriminate]. destruct (16 <=? len rest) eqn:L16; cbn [guard bind]; [|discriminate].
    destruct (len rest <? 24) eqn:L24; [discriminate|]. 
    assert (GA' : Gzip_GoodAa (rest ++ t') = Ok true).
    { rewrite <- GA. unfold Gzip_GoodAa. rewrite len_app. replace (16 <=? len rest + len t') with true by lia. rewrite L16. cbn [guard bind].
      rewrite firstn_app. replace (16 - List.length rest)%nat with 0%nat by (unfold len in *; lia). rewrite firstn_O, app_nil_r. auto. }
    rewrite GA'. cbn [bind guard]. rewrite !len_app. replace (16 <=? len rest + len t') with true by lia. cbn [guard bind].
    replace (len rest + len t' <? 24) with false by lia. rewrite skipn_app, firstn_app.
    replace (8 - List.length (skipn 16 rest))%nat with 0%nat by (rewrite skipn_length; unfold len in *; lia).
    rewrite firstn_O, app_nil_r. auto. }
  rewrite A'. cbn [bind]. destruct (Header_Parse prefix (cstr u)) as [hd| | |]; try discriminate. cbn [bind] in *. rewrite <- H.
  f_equal. f_equal. f_equal. change (c :: l) with ([c] ++ l) in *. rewrite Em, !len_app. lia.
Qed.

Lemma headed_rely own s s' e id hd : rely own s s' -> headed s e id hd -> headed s' e id hd.
Proof.
  intros (_ & R & _) (b & w & bl & bo & E & H & X). destruct (R _ _ _ E) as (t & w' & E' & _).
  exists (b ++ t), w', bl, bo. split; [auto|]. split; [|auto]. apply read_more. auto.
Qed.

Definition iterq (own : list N) (s : fs) (id : bytes) (segs : list getjobseg) (es : list ixent) (x : iter_res) (o : list N) (s' : fs) : Prop :=
  o = own /\ rely own s s' /\ forall g, x = ItGot g -> exists e, In e es /\ g_flag g = e_flags e /\
    (segs = [] -> flag (e_flags e) IDX_F_SEGMENTED && negb (flag (e_flags e) IDX_F_FIRSTSEG) = false /\ headed s' e id (g_hdr g)).

Lemma iter_ok own s id segs e : wpD (iterq own s id segs [e]) own s (getjob_iter C id segs e).
Proof.
  unfold getjob_iter. apply wp_ro; auto. intros s1 R I.
  assert (RET : forall x, (forall g, x = ItGot g -> g_flag g = e_flags e /\
      (segs = [] -> flag (e_flags e) IDX_F_SEGMENTED && negb (flag (e_flags e) IDX_F_FIRSTSEG) = false /\ headed s1 e id (g_hdr g))) ->
      wpD (iterq own s id segs [e]) own s1 (Ret x)).
  { intros x H. cbn [wp]. split; [auto|]. split; [auto|]. intros g Eg. exists e. split; [left; auto|]. apply H. auto. }
  cbn [exec snd]. destruct (f_silo s1 (e_silo e)) as [[b wr]|] eqn:FS; [|cbn [wp]; auto].
  apply lift_any. intros [[[hd bl] boff]|] RH; [|cbn [wp]; auto].
  destruct (flag (e_flags e) IDX_F_WARCINFO && _); [apply RET; discriminate|].
  destruct segs as [|last segs'].
  - unfold Header_Get_Id in *. destruct (caseeq (h_id hd) id) eqn:CE; cbn [negb]; [|apply RET; discriminate].
    destruct (flag (e_flags e) IDX_F_SEGMENTED && _) eqn:X; [apply RET; discriminate|].
    apply RET. intros g Eg. injection Eg as <-. split; [auto|]. intros _. split; [auto|]. exists b, wr, bl, boff. auto.
  - destruct (Header_Get hd _) as [o|]; [|cbn [wp]; auto].
    do 4 (apply wp_assert; [auto|]; intros _). dif; [apply RET; discriminate|].
    apply lift_any. intros im _. apply wp_assert; auto. intros _. dif; [apply RET; discriminate|].
    apply RET. intros g Eg. injection Eg as <-. split; [auto|discriminate].
Qed.

Lemma iter_loop_ok own id segs es : forall s, wpD (iterq own s id segs es) own s (iter_loop C id segs es).
Proof.
  induction es as [|e r IH]; intros s; cbn [iter_loop].
  - cbn [wp]. split; [auto|]. split; [apply rely_refl|]. discriminate.
  - eapply wp_seq; [apply iter_ok|]. cbn beta. intros x o s1 (-> & R & H).
    destruct x as [| |g].
    + eapply wp_conseq; [|apply IH]. cbn beta. intros x o s2 (-> & R2 & H2). split; [auto|].
      split; [eapply rely_trans; eauto|]. intros g Eg. destruct (H2 g Eg) as (e' & X1 & X2). exists e'. split; [right; auto|auto].
    + cbn [wp]. split; [auto|split; [auto|discriminate]].
    + cbn [wp]. split; [auto|split; [auto|]]. intros g' Eg. destruct (H g' Eg) as (e' & [<-|[]] & X2). exists e. split; [left; auto|auto].
Qed.

(* There is an entry for the identifier, neither a silo description nor a
   continuation, and the header hd is there. *)
Definition known_hdr (s : fs) (nid : bytes) (hd : header) : Prop := exists e, In e (f_idx s) /\ askedb nid e = true /\
  flag (e_flags e) IDX_F_WARCINFO = false /\
  flag (e_flags e) IDX_F_SEGMENTED && negb (flag (e_flags e) IDX_F_FIRSTSEG) = false /\ headed s e nid hd.
Definition known (s : fs) (nid : bytes) : Prop := exists hd, known_hdr s nid hd.

Lemma known_hdr_rely own s s' nid hd : rely own s s' -> known_hdr s nid hd -> known_hdr s' nid hd.
Proof.
  intros RR (e & H & X1 & X2 & X3 & X4). pose proof RR as (_ & _ & ex & R). exists e. split; [|split; [auto|split; [auto|split; [auto|eapply headed_rely; eauto]]]].
  apply (Permutation_in _ (Permutation_sym R)). apply in_or_app. auto.
Qed.
Lemma known_rely own s s' nid : rely own s s' -> known s nid -> known s' nid.
Proof. intros R (hd & H). exists hd. eapply known_hdr_rely; eauto. Qed.

Definition firstg (s : fs) (id : bytes) (g : getjobseg) : Prop := known_hdr s id (g_hdr g).

Lemma getjob_loop_ok own id : forall fuel segs nid s,
  (segs = [] -> nid = id) -> (forall g, hd_error (rev segs) = Some g -> firstg s id g) ->
  wpD (fun a o s' => o = own /\ rely own s s' /\
         forall gs, a = Some gs -> exists g r, gs = g :: r /\ firstg s' id g) own s (getjob_loop C fuel id segs nid).
Proof.
  induction fuel as [|fu IH]; intros segs nid s E K; cbn [getjob_loop]; [cbn [wp]; auto|].
  apply wp_ro; auto. intros s1 R1 I1. cbn [exec snd].
  eapply wp_seq; [apply iter_loop_ok|]. cbn beta. intros x o s2 (-> & R2 & H).
  assert (R02 : rely own s s2) by (eapply rely_trans; eauto).
  destruct x as [| |g]; [cbn [wp]; split; [auto|split; [auto|discriminate]]..|].
  apply wp_assert; auto. intros W. apply negb_true_iff in W.
  assert (K2 : forall g0, hd_error (rev (g :: segs)) = Some g0 -> firstg s2 id g0).
  { intros g0 Eg. destruct segs as [|g1 segs'].
    - cbn in Eg. injection Eg as <-. rewrite (E eq_refl) in *.
      destruct (H g eq_refl) as (e & X1 & X2 & X3). destruct (X3 eq_refl) as (X5 & X6). apply filter_In in X1. destruct X1 as [X1 X4].
      assert (In e (f_idx s2)). { destruct R2 as (_ & _ & ex & R2). apply (Permutation_in _ (Permutation_sym R2)). apply in_or_app. auto. }
      exists e. rewrite X2 in W. auto.
    - eapply known_hdr_rely; [exact R02|]. apply K. cbn [rev] in *. destruct (rev segs') as [|y ys]; cbn [app hd_error] in *; auto. }
  destruct (negb (flag (g_flag g) IDX_F_SEGMENTED)).
  - do 3 (apply wp_assert; [auto|]; intros _). apply wp_assert; [auto|]. intros SN. cbn [wp]. split; [auto|]. split; [auto|].
    intros gs Egs. injection Egs as <-. exists g, []. split; [auto|]. apply K2. destruct segs; [reflexivity|discriminate].
  - destruct (flag (g_flag g) IDX_F_LASTSEG).
    + cbn [wp]. split; [auto|]. split; [auto|]. intros gs Egs. injection Egs as <-.
      change (rev segs ++ [g]) with (rev (g :: segs)).
      destruct (rev (g :: segs)) as [|g0 r] eqn:ER; [cbn [rev] in ER; destruct (rev segs); discriminate|]. exists g0, r. split; [auto|]. apply K2. auto.
    + eapply wp_conseq; [|apply (IH (g :: segs) (g_cont g) s2)]; [|discriminate|auto]. cbn beta. intros a o s3 (-> & R3 & X).
      split; [auto|]. split; [eapply rely_trans; eauto|auto].
Qed.

Lemma GetJob_New_get own s id : wpD (fun a o s' => o = own /\ rely own s s' /\
    forall gs, a = Some gs -> exists nid g r, IDX_Valid_Id prefix (c_idsize C) id = IdOk nid /\ gs = g :: r /\ firstg s' nid g) own s (GetJob_New C id).
Proof.
  unfold GetJob_New. destruct (IDX_Valid_Id prefix (c_idsize C) id) as [nid| | | |] eqn:E;
    try (cbn [wp]; split; [auto|split; [apply rely_refl|discriminate]]).
  eapply wp_conseq; [|apply getjob_loop_ok; [auto|intros g X; discriminate X]]. cbn beta. intros a o s' (-> & R & H). split; [auto|split; [auto|]].
  intros gs Eg. destruct (H gs Eg) as (g & r & X). exists nid, g, r. auto.
Qed.

Lemma GetJob_New_ok own s id : wpD (fun a o s' => o = own /\ rely own s s' /\
    (a <> None -> exists nid, IDX_Valid_Id prefix (c_idsize C) id = IdOk nid /\ known s' nid)) own s (GetJob_New C id).
Proof.
  eapply wp_conseq; [|apply GetJob_New_get]. cbn beta. intros a o s' (-> & R & H). split; [auto|split; [auto|]].
  intros X. destruct a as [gs|]; [|congruence]. destruct (H gs eq_refl) as (nid & g & r & V & _ & K). exists nid. split; [auto|]. exists (g_hdr g). exact K.
Qed.

(* reading the bodies *)
Lemma GetJob_Iter_ok own segs : forall s, wpD (fun _ o s' => o = own /\ rely own s s') own s (GetJob_Iter segs).
Proof.
  induction segs as [|g r IH]; intros s; cbn [GetJob_Iter]; [cbn [wp]; split; [auto|apply rely_refl]|].
  apply wp_ro; auto. intros s1 R1 I1. cbn [exec snd].
  destruct (match f_silo s1 (g_silo g) with Some (d, _) => Some d | None => None end); [|cbn [wp]; auto].
  apply lift_any. intros d _. eapply wp_seq; [apply IH|]. cbn beta. intros ds o s2 (-> & R2). cbn [wp].
  split; [auto|eapply rely_trans; eauto].
Qed.
Lemma gz_pieces_ok own segs : forall s, wpD (fun _ o s' => o = own /\ rely own s s') own s (gz_pieces segs).
Proof.
  induction segs as [|g r IH]; intros s; cbn [gz_pieces]; [cbn [wp]; split; [auto|apply rely_refl]|].
  apply wp_ro; auto. intros s1 R1 I1. cbn [exec snd].
  destruct (match f_silo s1 (g_silo g) with Some (d, _) => Some d | None => None end); [|cbn [wp]; auto].
  destruct (Rsilo_ReadGZChunk b (g_boff g) (g_blen g)) as [ps []]; [|cbn [wp]; auto].
  eapply wp_seq; [apply IH|]. cbn beta. intros ds o s2 (-> & R2). cbn [wp].
  split; [auto|eapply rely_trans; eauto].
Qed.

(* What has been delivered agrees with the digest in the header found. *)
Definition delivered (arg d : bytes) (s : fs) : Prop := exists nid hd p,
  IDX_Valid_Id prefix (c_idsize C) arg = IdOk nid /\ known_hdr s nid hd /\
  (Header_Get hd (str "WARC-Payload-Digest") = Some p \/
   Header_Get hd (str "WARC-Payload-Digest") = None /\ Header_Get hd (str "WARC-Block-Digest") = Some p) /\
  firstn 7 p = str "sha256:" /\ firstn (N.to_nat (c_idsize C)) (skipn 7 p) = firstn (N.to_nat (c_idsize C)) (z_sha L d).

Lemma delivered_rely own s s' arg d : rely own s s' -> delivered arg d s -> delivered arg d s'.
Proof. intros R (nid & hd & p & V & K & X). exists nid, hd, p. split; [auto|]. split; [|auto]. eapply known_hdr_rely; eauto. Qed.

Lemma main_get_ok own s zip arg : wpD (fun a o s' => o = own /\ rely own s s' /\
   (zip = false -> forall d, a = Some d -> delivered arg d s')) own s (main_get C L zip arg).
Proof.
  unfold main_get. eapply wp_seq; [apply GetJob_New_get|]. cbn beta. intros a o s1 (-> & R1 & HG).
  destruct a as [segs|]; [|cbn [wp]; split; [auto|split; [auto|discriminate]]]. unfold get_body. destruct zip.
  - eapply wp_seq with (R := fun _ o s' => o = own /\ rely own s s').
    + unfold GetJob_Iter_gz. eapply wp_seq; [apply gz_pieces_ok|]. cbn beta. intros ps o s2 (-> & R2).
      assert (rely own s s2) by (eapply rely_trans; eauto).
      destruct segs as [|? [|? ?]]; try (cbn [wp]; auto; fail); apply wp_lift; auto.
    + cbn beta. intros d o s2 (-> & R2). cbn [wp]. split; [auto|split; [auto|discriminate]].
  - cbv zeta. destruct (HG segs eq_refl) as (nid & g & r & V & -> & K).
    apply wp_bind. eapply wp_seq; [apply GetJob_Iter_ok|]. cbn beta. intros d o s2 (-> & R2). cbv zeta.
    destruct (match Header_Get (g_hdr g) (str "WARC-Payload-Digest") with Some p => Some p | None => _ end) as [p|] eqn:EP; [|cbn [wp]; auto].
    apply wp_assert; [auto|]. intros A1. apply wp_assert; [auto|]. intros A2.
    match goal with |- wp _ _ _ _ _ (match ?x with _ => _ end) => destruct x end; [|cbn [wp]; auto].
    apply wp_assert; auto. intros _. cbn [wp]. split; [auto|]. split; [eapply rely_trans; eauto|].
    intros _ d0 Ed. injection Ed as <-. exists nid, (g_hdr g), p. split; [auto|]. split; [eapply known_hdr_rely; [exact R2|exact K]|].
    apply bytes_eqb_true in A1, A2. split; [|split; auto].
    destruct (Header_Get (g_hdr g) (str "WARC-Payload-Digest")); [left; auto|right; auto].
Qed.

Section Base.
Variable hdr : header.
Variable typ : bytes.
Variable ident : option bytes.
Hypothesis BO : base_ok C hdr typ.
Notation jinv := (jinv C L hdr typ ident).
Notation dones := (dones C L hdr typ ident).
Notation stype := (stype typ).

Lemma feed_all_ok ds : forall aa sj own s dn, jinv s own sj dn -> cache_ok C s aa -> Forall (fun d => d <> [] /\ is_bytes d) ds ->
  len (sj_pay L sj) + len (List.concat ds) < 2 ^ 62 -> full L sj dn ->
  wpD (fun x own' s1 => cache_ok C s1 (fst x) /\ (exists dn', jinv s1 own' (snd x) dn' /\ full L (snd x) dn' /\ (ds <> [] \/ sj_cur L sj <> None -> sj_cur L (snd x) <> None)) /\
         sj_pay L (snd x) = sj_pay L sj ++ List.concat ds) own s (feed_all C L aa sj ds).
Proof.
  induction ds as [|d r IH]; intros aa sj own s dn J CK HB SZ FU; cbn [feed_all List.concat] in *.
  - cbn [wp fst snd]. rewrite app_nil_r. split; [auto|]. split; [|auto]. exists dn. split; [auto|]. split; [auto|]. intros [X|X]; [congruence|auto].
  - inversion HB as [|? ? (H0 & H1) H2]; subst. rewrite len_app in SZ. unfold SegJob_Feed.
    eapply wp_seq; [apply (feed_loop_ok C L CO ZO D DA DF hdr typ ident BO _ aa sj d own s dn); auto; lia|]. cbn beta.
    intros (aa1, sj1) own1 s1 (CK1 & (dn1 & J1 & F1) & P & _ & C1 & _). cbn [fst snd] in *.
    eapply wp_conseq; [|apply (IH aa1 sj1 own1 s1 dn1); auto; rewrite P, len_app; lia]. cbn beta.
    intros x o s2 (X1 & (dn' & X2 & X4 & X5) & X3). split; [auto|split; [exists dn'; split; [auto|split; [auto|intros _; apply X5; right; auto]]|]]. rewrite X3, P, <- app_assoc. auto.
Qed.

(** * Throwing segments away *)
Lemma destroy_ok sgs : forall own s, (forall n, In n (silos sgs) -> quiet C L s n) -> NoDup (silos sgs) -> same (silos sgs) own ->
  wpD (fun _ o s' => o = [] /\ rely [] s s') own s (segjob_destroy sgs).
Proof.
  induction sgs as [|sg r IH]; intros own s H ND S; cbn [segjob_destroy].
  - cbn [wp]. split; [|apply rely_refl]. destruct own as [|n own]; auto. exfalso. apply (S n). left. auto.
  - cbn [silos map] in *. inversion ND as [|? ? N1 N2]; subst. unfold wsilo_delete.
    apply wp_unlink; [apply S; left; auto|apply H; left; auto|]. intros s1 R.
    eapply wp_conseq; [|apply (IH (rm (w_no (sg_silo sg)) own) s1)].
    + cbn beta. intros _ o s2 (-> & R2). split; [auto|]. eapply rely_trans; [eapply rely_nil; exact R|exact R2].
    + intros n Hn. assert (X : In n (rm (w_no (sg_silo sg)) own)).
      { apply in_in_remove; [intros ->; auto|]. apply S. right. auto. }
      destruct R as (R & _). destruct (R n X) as (E1 & _ & E3). unfold quiet. rewrite E1.
      eapply settled_perm; [apply Permutation_sym; exact E3|]. apply H. right. auto.
    + auto.
    + intros n. split; intros Hn.
      * apply in_in_remove; [intros ->; auto|]. apply S. right. auto.
      * apply in_remove in Hn. destruct Hn as [Hn X]. apply S in Hn. destruct Hn; [congruence|auto].
Qed.

(** * Committing several segments *)

(* a segment ready to be put in, of an object with that identifier and content *)
Definition comm (s : fs) (fid whole : bytes) (i : N) (sg : segment) (d : bytes) : Prop :=
  let h := sg_hdr sg in
  hgood h /\ hlen prefix h <= 2850 /\ idgood (h_id h) /\ sg_no sg = i /\
  hget h "WARC-Type" = Some (stype i) /\ hget h "WARC-Segment-Number" = (if i =? 1 then None else Some (dec i)) /\
  hget h "WARC-Segment-Total-Length" = None /\ w_idx (sg_silo sg) = type_flag (stype i) /\
  hget h "Content-Length" = Some (dec (len d)) /\ hget h "WARC-Block-Digest" = Some (str "sha256:" ++ z_sha L d) /\
  hget h "WARC-Refers-To" = hget hdr "WARC-Refers-To" /\ hget h "Content-Type" = hget hdr "Content-Type" /\
  (i = 1 -> hget h "WARC-Payload-Digest" = Some (str "sha256:" ++ z_sha L whole) /\ h_id h = fid /\
            (typ = str "resource" -> fid = firstn (N.to_nat (c_idsize C)) (z_sha L whole))) /\
  (i <> 1 -> h_id h = firstn (N.to_nat (c_idsize C)) (z_sha L d)) /\
  exists hb, mine C L s (w_no (sg_silo sg)) hb /\ sealed C L (sg_silo sg) d hb.

Fixpoint comms (s : fs) (fid whole : bytes) (i : N) (sgs : list segment) (ds : list bytes) : Prop :=
  match sgs, ds with
  | [], [] => True
  | sg :: r, d :: rd => comm s fid whole i sg d /\ comms s fid whole (i + 1) r rd
  | _, _ => False
  end.

Lemma comms_rely own s s' fid whole ds : forall i sgs, (forall n, In n (silos sgs) -> In n own) ->
  comms s fid whole i sgs ds -> rely own s s' -> comms s' fid whole i sgs ds.
Proof.
  induction ds as [|d ds IH]; intros i [|sg r] H Hd R; cbn [comms] in *; auto.
  destruct Hd as [(A1 & A2 & A3 & A4 & A5 & A6 & A7 & A8 & A9 & A10 & A11 & A12 & A13 & A16 & hb & A14 & A15) Hd]. split.
  - unfold comm. cbv zeta. repeat (split; [assumption|]). exists hb. split; auto. eapply mine_rely; [|exact A14|exact R]. apply H. left. auto.
  - eapply IH; eauto. intros n Hn. apply H. right. auto.
Qed.

Lemma comms_hold s fid whole ds n : forall i sgs, comms s fid whole i sgs ds -> In n (silos sgs) -> f_hold s n <> None.
Proof.
  induction ds as [|d ds IH]; intros i [|sg r] H Hn; cbn [comms] in *; try contradiction.
  destruct H as [(_ & _ & _ & _ & _ & _ & _ & _ & _ & _ & _ & _ & _ & _ & hb & (A & _) & _) H]. destruct Hn as [<-|Hn]; [congruence|]. eapply IH; eauto.
Qed.

Lemma part_rely own s s' id data k p : part_ok C L s id data k p -> rely own s s' -> part_ok C L s' id data k p.
Proof. intros (H1 & H2) R. split; [eapply in_archive_rely; eauto|auto]. Qed.

Lemma chain_rely own s s' id data ps : forall k, chain C L s id data k ps -> rely own s s' -> chain C L s' id data k ps.
Proof.
  induction ps as [|p r IH]; intros k H R; [exact H|]. cbn [chain] in *. destruct H as [H1 H2]. split; [eapply part_rely; eauto|].
  destruct r; auto. destruct H2 as (H2 & H3 & H4). auto.
Qed.

Lemma stored_rely own s s' t id data ps : stored_as C L s t id data ps -> rely own s s' -> stored_as C L s' t id data ps.
Proof.
  intros (H1 & H2) R. split; [auto|]. destruct ps as [|p r]; auto. destruct H2 as (H2 & H3). split; [auto|].
  destruct r as [|q r].
  - destruct H3 as (A & B). split; [eapply in_archive_rely; eauto|auto].
  - eapply chain_rely; eauto.
Qed.

Lemma set_ref_ret' h d (n : string) : hgood h -> goodname n = true -> goodval d -> len d = c_idsize C ->
  exists h', Header_Set_Ref prefix (c_idsize C) h (str n) d = Ok h' /\ hgood h' /\ h_id h' = h_id h /\
    (forall m, hget h' m = if samename m n then Some (str "<" ++ prefix ++ d ++ str ">") else hget h m) /\
    hlen prefix h' <= hlen prefix h + len (str n) + len prefix + c_idsize C + 6.
Proof.
  intros G N V Ld. unfold Header_Set_Ref, guard. pose proof (co_idsize C CO). replace (c_idsize C <=? len d) with true by lia. cbn [bind].
  destruct (co_prefix C CO) as ((P1 & P2 & _) & P3 & P4).
  assert (Fd : firstn (N.to_nat (c_idsize C)) d = d) by (apply firstn_all2; unfold len in Ld; lia).
  rewrite Fd. destruct (set_good prefix h n ([60] ++ prefix ++ d ++ [62])) as (h' & E & G' & I & GG & LL); auto.
  - repeat apply goodval_app; try (apply goodb_val; reflexivity); [split; auto|auto].
  - exists h'. split; [exact E|]. repeat (split; [auto|]). unfold Header_Len in LL. rewrite !len_app in LL.
    change (len [60]) with 1 in LL. change (len [62]) with 1 in LL. lia.
Qed.

Definition pdata (ps : list part) : list bytes := map (fun p => wr_data (p_rec p)) ps.

Definition pfirst (i : N) (id : bytes) (p : part) : Prop := p_id p = id /\
  has (wr_hdr (p_rec p)) "WARC-Type" (stype i) /\
  (forall v, hget hdr "Content-Type" = Some v -> has (wr_hdr (p_rec p)) "Content-Type" v) /\
  (forall v, hget hdr "WARC-Refers-To" = Some v -> has (wr_hdr (p_rec p)) "WARC-Refers-To" v).

Lemma stype_nw i : stype i <> str "warcinfo".
Proof. destruct BO as (_ & _ & _ & _ & _ & B & _). unfold StoreJob.stype. destruct (i =? 1); [|discriminate]. destruct B as [-> | ->]; discriminate. Qed.

Definition place (p : part) : N * N := (p_silo p, p_off p).
Definition places (sgs : list segment) : list (N * N) := map (fun sg => (w_no (sg_silo sg), w_start (sg_silo sg))) sgs.

Lemma commit_loop_ok fid whole : goodval fid -> len fid = c_idsize C -> len whole < 2 ^ 62 -> forall sgs ds i aa own s, 1 <= i ->
  comms s fid whole i sgs ds -> NoDup (silos sgs) -> same (silos sgs) own -> cache_ok C s aa -> sgs <> [] ->
  wpD (fun _ o s' => o = [] /\ exists ps, (chain C L s' fid whole i ps /\ map place ps = places sgs) /\ pdata ps = ds /\
         match ps, sgs with p :: _, sg :: _ => pfirst i (h_id (sg_hdr sg)) p | _, _ => False end)
      own s (commit_loop C L aa fid (len whole) sgs).
Proof.
  intros GF LF LW. induction sgs as [|sg r IH]; intros ds i aa own s Hi HC ND S CK NE; [congruence|]. clear NE. cbn [commit_loop].
  destruct ds as [|d rd]; [contradiction|]. cbn [comms] in HC. destruct HC as [HC HR].
  destruct HC as (A1 & A2 & A3 & A4 & A5 & A6 & A7 & A8 & A9 & A10 & A11 & A12 & A13 & A16 & hb & A14 & A15).
  cbn [silos map] in ND, S. inversion ND as [|? ? N1 N2]; subst x l. fold (silos r) in *.
  set (h0 := sg_hdr sg) in *.
  (* the number of the segment, or the origin *)
  assert (exists h1, (if sg_no sg =? 1 then hset h0 "WARC-Segment-Number" (str "1")
       else lift (Header_Set_Ref prefix (c_idsize C) h0 (str "WARC-Segment-Origin-ID") fid)) = Ret h1 /\
     hgood h1 /\ h_id h1 = h_id h0 /\ hlen prefix h1 <= 3500 /\ hget h1 "WARC-Segment-Number" = Some (dec i) /\
     (i <> 1 -> hget h1 "WARC-Segment-Origin-ID" = Some (str "<" ++ prefix ++ fid ++ str ">")) /\
     (forall m, samename m "WARC-Segment-Number" = false -> samename m "WARC-Segment-Origin-ID" = false -> hget h1 m = hget h0 m))
     as (h1 & E1 & G1 & I1 & L1 & K1 & K2 & K3).
  { rewrite A4. destruct (i =? 1) eqn:X.
    - apply N.eqb_eq in X. destruct (hset_ret prefix h0 "WARC-Segment-Number" (str "1")) as (h' & E & G & I & GG & LL);
        [auto|reflexivity|apply goodb_val; reflexivity|]. exists h'. split; [auto|]. split; [auto|]. split; [auto|].
      split; [unfold Header_Len in LL; change (len (str "WARC-Segment-Number")) with 19 in LL; change (len (str "1")) with 1 in LL; lia|].
      split; [rewrite GG; names; rewrite X; reflexivity|]. split; [lia|]. intros m M1 M2. rewrite GG, M1. auto.
    - destruct (set_ref_ret' h0 fid "WARC-Segment-Origin-ID") as (h' & E & G & I & GG & LL); [auto|reflexivity|auto|auto|].
      exists h'. rewrite E. split; [auto|]. split; [auto|]. split; [auto|].
      destruct (co_prefix C CO) as (_ & _ & LP). pose proof (co_idsize C CO) as LID.
      split; [change (len (str "WARC-Segment-Origin-ID")) with 22 in LL; lia|].
      split; [rewrite GG; names; auto|]. split; [intros _; rewrite GG; names; auto|]. intros m M1 M2. rewrite GG, M2. auto. }
  rewrite E1. cbn [bindp]. clear E1.
  set (rid := match r with [] => None | n :: _ => Some (h_id (sg_hdr n)) end).
  assert (exists h2, (match r with
        | [] => let! h := hset h1 "WARC-Segment-Total-Length" (dec (len whole)) in Ret (h, None)
        | n :: _ => Ret (h1, Some (Header_Get_Id (sg_hdr n)))
        end) = Ret (h2, rid) /\
     hgood h2 /\ h_id h2 = h_id h0 /\ hlen prefix h2 <= 3800 /\ 
     hget h2 "WARC-Segment-Total-Length" = (match r with [] => Some (dec (len whole)) | _ => None end) /\
     (forall m, samename m "WARC-Segment-Total-Length" = false -> hget h2 m = hget h1 m)) as (h2 & E2 & G2 & I2 & L2 & K4 & K5).
  { destruct r as [|n r].
    - destruct (hset_ret prefix h1 "WARC-Segment-Total-Length" (dec (len whole))) as (h' & E & G & I & GG & LL);
        [auto|reflexivity|apply goodval_dec|]. exists h'. rewrite E. cbn [bindp]. split; [reflexivity|]. split; [auto|]. split; [congruence|].
      split; [unfold Header_Len in LL; change (len (str "WARC-Segment-Total-Length")) with 25 in LL; pose proof (dec_len (len whole) ltac:(lia)); lia|].
      split; [rewrite GG; names; auto|]. intros m M1. rewrite GG, M1. auto.
    - exists h1. split; [reflexivity|]. split; [auto|]. split; [auto|]. split; [lia|]. split; [rewrite K3 by reflexivity; auto|auto]. }
  rewrite E2. cbn [bindp]. clear E2.
  assert (HK : forall m, samename m "WARC-Segment-Total-Length" = false -> samename m "WARC-Segment-Number" = false ->
     samename m "WARC-Segment-Origin-ID" = false -> hget h2 m = hget h0 m).
  { intros m M1 M2 M3. rewrite K5, K3; auto. }
  assert (SNum : hget h2 "WARC-Segment-Number" = Some (dec i)) by (rewrite K5 by reflexivity; auto).
  assert (RD : ready C L (sg_silo sg) h2 (stype i) d).
  { unfold ready. split; [split; (apply has_get; [apply G2|rewrite HK by reflexivity; auto])|]. split.
    - unfold named. cbn [wr_hdr wr_data]. split; [|split].
      + intros T. apply has_get in T; [|apply G2]. rewrite HK, A5 in T by reflexivity.
        unfold StoreJob.stype in T. destruct (i =? 1) eqn:X; [|discriminate]. apply N.eqb_eq in X. destruct (A13 X) as (B1 & B2 & B3).
        assert (typ = str "resource") by congruence. exists (z_sha L whole). rewrite I2, B2. split; [auto|]. right.
        split; (apply has_get; [apply G2|]); [rewrite SNum, X; reflexivity|rewrite HK by reflexivity; auto].
      + unfold kind_ok. cbn [wr_hdr wr_data]. destruct BO as (_ & _ & _ & _ & _ & BT & _ & _ & _ & BR).
        unfold StoreJob.stype in A5. destruct (N.eq_dec i 1) as [X|X].
        * rewrite X in A5. change (1 =? 1) with true in A5. cbv iota in A5. left. split; [|right; apply has_get; [apply G2|rewrite SNum, X; reflexivity]].
          destruct BT as [BT|BT]; [left; apply has_get; [apply G2|]; rewrite HK, A5, BT by reflexivity; reflexivity|right]. split; [apply has_get; [apply G2|]; rewrite HK, A5, BT by reflexivity; reflexivity|].
          destruct (BR BT) as (ref & ER). exists ref. apply has_get; [apply G2|]. rewrite HK by reflexivity. congruence.
        * right. right. replace (i =? 1) with false in A5 by lia. split; [apply has_get; [apply G2|]; rewrite HK, A5 by reflexivity; reflexivity|].
          split; [exists i; split; [lia|apply has_get; [apply G2|auto]]|]. rewrite I2. auto.
      + rewrite I2. destruct (N.eq_dec i 1) as [X|X]; [destruct (A13 X) as (_ & -> & _); auto|].
        replace (h_id h0) with (firstn (N.to_nat (c_idsize C)) (z_sha L d)) by (symmetry; auto). apply ident_len; auto. apply len_sha; auto.
    - split; [auto|]. split; [rewrite I2; auto|]. split; [auto|]. split; [rewrite HK by reflexivity; auto|]. split; [apply stype_nw|auto]. }
  assert (SG : segok true h2 rid).
  { cbn [segok]. exists (dec i). split; [auto|]. rewrite K4. unfold rid. destruct r; eauto. }
  unfold Header_Get_Id.
  eapply (wp_part C L D); [apply (commit_ok C L CO ZO D DA s (sg_silo sg) hb d aa h2 (stype i) true rid); auto|exact S| |].
  { intros n Hn. split; [eapply comms_hold; eauto|]. intros [<-|[]]. auto. }
  cbn beta. intros aa1 o1 s1 (-> & CK1 & n & o & hd & e & IA & EC & G3 & I3 & PL & K6) R1 _ own1 S1. destruct (PL eq_refl) as (PL1 & PL2). cbn [app] in S1.
  assert (PK : part_ok C L s1 fid whole i (mkPart n o (mkRec hd d) e)).
  { unfold part_ok. cbn [p_silo p_off p_rec p_ent wr_hdr wr_data p_id]. split; [auto|].
    split; [apply has_get; [apply G3|rewrite K6 by reflexivity; auto]|]. destruct (i =? 1) eqn:X.
    - apply N.eqb_eq in X. destruct (A13 X) as (B1 & B2 & B3). unfold p_id. cbn [p_rec wr_hdr]. split; [congruence|].
      apply has_get; [apply G3|]. rewrite K6, HK by reflexivity. auto.
    - apply N.eqb_neq in X. split; (apply has_get; [apply G3|]).
      + rewrite K6, HK by reflexivity. rewrite A5. unfold StoreJob.stype. replace (i =? 1) with false by lia. auto.
      + rewrite K6, K5 by reflexivity. auto. }
  assert (PF : pfirst i (h_id h0) (mkPart n o (mkRec hd d) e)).
  { unfold pfirst, p_id. cbn [p_rec wr_hdr]. split; [congruence|]. split; [|split]; [|intros v Hv..]; apply has_get; try apply G3; rewrite K6, HK by reflexivity; congruence. }
  destruct r as [|sg2 r].
  - cbn [commit_loop wp]. split; [|exists [mkPart n o (mkRec hd d) e]; split; [|split; [|exact PF]]].
    + destruct own1 as [|x own1]; auto. exfalso. apply (S1 x). left. auto.
    + split; [|unfold place, places; cbn [map p_silo p_off]; rewrite PL1, PL2; reflexivity]. cbn [chain]. split; [exact PK|]. cbn [p_rec wr_hdr]. apply has_get; [apply G3|]. rewrite K6 by reflexivity. auto.
    + destruct rd; [reflexivity|contradiction].
  - eapply wp_conseq; [|apply wp_grow; apply (IH rd (i + 1) aa1 own1 s1); auto].
    + cbn beta. intros _ o' s2 ((-> & ps & (H1 & HP) & H2 & H3) & R2). split; [auto|]. exists (mkPart n o (mkRec hd d) e :: ps).
      split; [split; [|unfold places; cbn [map]; f_equal; [unfold place; cbn [p_silo p_off]; rewrite PL1, PL2; reflexivity|exact HP]]|split; [cbn [pdata map p_rec wr_data]; f_equal; exact H2|exact PF]].
      destruct ps as [|q ps]; [contradiction|]. cbn [chain]. split; [eapply part_rely; eauto|].
      split; [cbn [p_rec wr_hdr]; apply hasnt_get; rewrite K6 by reflexivity; auto|]. split; [|exact H1].
      cbn [p_ent]. rewrite EC. unfold rid. destruct H3 as (H3 & _). rewrite H3. auto.
    + lia.
    + eapply comms_rely; [|exact HR|exact R1]. auto.
    + discriminate.
Qed.

Lemma done_comm s fid whole i sg d : i <> 1 -> done_ok C L hdr typ ident s i sg d -> comm s fid whole i sg d.
Proof.
  intros Hi ((B1 & B2 & B3 & B4 & B5 & B6 & B7 & B8 & B9 & B10) & A2 & A3 & A4 & A5 & A6 & A7 & A8).
  unfold comm. cbv zeta. split; [auto|]. split; [lia|]. split.
  { unfold segid in A7. replace (i =? 1) with false in A7 by lia. destruct A7 as (x & -> & _). apply hex_id. apply forall_firstn. apply sha_hex. auto. }
  split; [auto|]. split; [auto|]. split; [auto|]. split; [auto|]. split; [auto|]. split; [auto|]. split; [auto|]. split; [auto|]. split; [auto|].
  split; [lia|]. split; [|auto]. intros _. unfold segid in A7. replace (i =? 1) with false in A7 by lia. destruct A7 as (x & -> & _ & Q). rewrite Q; auto.
  unfold StoreJob.stype. replace (i =? 1) with false by lia. discriminate.
Qed.

Lemma dones_comms s fid whole ds : forall i sgs, 1 < i -> dones s i sgs ds -> comms s fid whole i sgs ds.
Proof.
  induction ds as [|d ds IH]; intros i [|sg r] Hi H; cbn [StoreJob.dones comms] in *; auto.
  destruct H as [H1 H2]. split; [apply done_comm; auto; lia|]. apply IH; auto. lia.
Qed.

Lemma hex_valid fid : Forall (fun c => is_hex c = true) fid -> forall nid, IDX_Valid_Id prefix (c_idsize C) fid = IdOk nid -> nid = fid.
Proof.
  intros H nid E. unfold IDX_Valid_Id in E. assert (X : strip_prefix prefix fid = fid).
  { unfold strip_prefix. destruct (ncaseeq (List.length prefix) fid prefix) eqn:Y; auto. exfalso.
    destruct (co_prefix C CO) as ((_ & _ & q & Q) & _). unfold ncaseeq in Y. apply caseeq_lower in Y. rewrite Q in Y.
    rewrite firstn_all in Y. unfold lower in Y. rewrite map_app in Y. cbn [map] in Y.
    assert (Z : In (to_lower 47) (map to_lower (firstn (List.length (q ++ [47])) fid))) by (rewrite Y; apply in_or_app; right; left; auto).
    apply in_map_iff in Z. destruct Z as (c & Z1 & Z2). apply (forall_firstn _ (List.length (q ++ [47]))) in H. rewrite Forall_forall in H. apply H in Z2.
    clear - Z1 Z2. change (to_lower 47) with 47 in Z1. unfold is_hex, is_digit, to_lower, is_upper in *. destruct ((65 <=? c) && (c <=? 90)) eqn:Y; lia. }
  rewrite X in E. destruct (existsb _ fid); [discriminate|]. destruct (negb _); [discriminate|]. destruct (_ <? _); [discriminate|].
  destruct (_ <? _); [discriminate|]. congruence.
Qed.

(* The entries a store inserts: those not for later segments and not for a
   warcinfo record are under the identifier of the object, those for segments are
   for the segments of the object. *)
Definition ins_ok (id : bytes) (pl : list (N * N)) (e : ixent) : Prop := (first_ent e -> e_key e = pad 24 id) /\
  (flag (e_flags e) IDX_F_SEGMENTED = true -> In (e_silo e, e_off e) pl).
Notation insc id pl := (fun c => Forall (ins_ok id pl) (ins_of c)).

Lemma hl_insc {A} id pl (p : prog A) : allcalls harmless p -> allcalls (insc id pl) p.
Proof. apply ac_weak. intros c H. rewrite hl_ins by auto. constructor. Qed.

Lemma ac_lifted {A B} P (r : res A) (f : A -> prog B) : (forall a, r = Ok a -> allcalls P (f a)) -> allcalls P (bindp (lift r) f).
Proof. intros H. destruct r; cbn [lift bindp allcalls]; auto. Qed.

Lemma ins_insert id pl i fl n o c : (first_ent (ideal i fl n o c) -> i = id) -> (flag fl IDX_F_SEGMENTED = true -> In (n, o) pl) -> allcalls (insc id pl) (insert i fl n o c).
Proof. intros H HP. unfold insert. apply ac_sys. cbn [ins_of]. constructor; [|constructor]. split; [intros F; rewrite (H F); reflexivity|exact HP]. Qed.

Lemma append_ins id pl k : forall aa sl sn v, flag (w_idx sl) IDX_F_SEGMENTED = false -> allcalls (insc id pl) (append_loop C k aa sl sn v id).
Proof.
  assert (Q : forall c, harmless c -> allcalls (insc id pl) (sys c)) by (intros; apply hl_insc; apply ac_sys; auto).
  assert (W : forall aa, allcalls (insc id pl) (WriteCache aa)) by (intros; apply hl_insc; unfold WriteCache; ac).
  induction k as [|k IH]; intros aa sl sn v W0; cbn [append_loop]; [exact I|]. apply ac_bind.
  - unfold silo_attempt_append. cbv zeta.
    repeat first [ exact I | apply ac_assert | apply W | (apply Q; exact I) | (apply ac_sys; exact (Forall_nil _))
      | (apply ins_insert; [auto|rewrite W0; discriminate]) | (apply ac_bind; [|intro]) | match goal with |- allcalls _ (match ?x with _ => _ end) => destruct x end ].
  - intros [aa' r]. destruct r; auto; exact I.
Qed.

Lemma install_ins id pl aa sl : allcalls (insc id pl) (Wsilo_Install aa sl).
Proof.
  unfold Wsilo_Install, wsilo_delete, WriteCache. 
  apply ac_bind; [apply ins_insert; [intros (F & _); discriminate|discriminate]|intro].
  repeat first [ exact I | apply ac_assert | (apply ac_sys; exact (Forall_nil _)) 
      | (apply ac_bind; [|intro]) | match goal with |- allcalls _ (match ?x with _ => _ end) => destruct x end ].
Qed.

Lemma commit_ins fid pl aa sl hd segd id rid : hgood hd -> flag (w_idx sl) IDX_F_SEGMENTED = false ->
  (segd = true -> In (w_no sl, w_start sl) pl) ->
  id = fid \/ (segd = true /\ w_idx sl = 0 /\ exists k, hget hd "WARC-Segment-Number" = Some k /\ k <> str "1") ->
  allcalls (insc fid pl) (Wsilo_Commit C L aa sl hd segd id rid).
Proof.
  intros G WI HP H. unfold Wsilo_Commit. apply ac_bind; [apply ac_assert|]. intros _. apply ac_bind.
  - destruct (negb segd && (0 <? w_no sl)) eqn:E; [|exact I]. apply ac_bind; [apply ac_assert|]. intros _.
    apply ac_bind; [apply ac_lift|]. intros v. destruct H as [->|(-> & _)]; [apply append_ins; auto|discriminate].
  - intros [aa' [|]].
    { apply ac_bind; [|intro; exact I]. unfold wsilo_delete. apply hl_insc. ac. }
    apply ac_bind; [apply ac_lift|]. intros v. cbv zeta.
    assert (K : forall hd2 v2, hget hd2 "WARC-Segment-Number" = hget hd "WARC-Segment-Number" -> allcalls (insc fid pl) (
      let! _ := assert (len v2 =? w_hlen sl) in
      let! _ := sys (CPwrite (w_no sl) (w_start sl) v2) in
      let! idx :=
        (if segd then
          match Header_Get hd2 (str "WARC-Segment-Number") with
          | None => Die DAbort
          | Some t =>
              let x := N.lor (w_idx sl) IDX_F_SEGMENTED in
              let x := if bytes_eqb t (str "1") then N.lor x IDX_F_FIRSTSEG else x in
              Ret (match rid with None => N.lor x IDX_F_LASTSEG | Some _ => x end)
          end
        else Ret (w_idx sl)) in
      let! _ := insert id idx (w_no sl) (w_start sl) rid in
      Wsilo_Install aa' sl)).
    { intros hd2 v2 HG. apply ac_bind; [apply ac_assert|]. intros _. apply ac_bind; [apply ac_sys; constructor|]. intros _.
      change (Header_Get hd2 (str "WARC-Segment-Number")) with (hget hd2 "WARC-Segment-Number"). rewrite HG.
      destruct H as [->|(-> & W0 & k & H1 & H2)].
      - destruct segd; [destruct (hget hd "WARC-Segment-Number"); [|exact I]|]; cbn [bindp]; cbv zeta;
          (apply ac_bind; [apply ins_insert; [auto|]|intros _; apply install_ins]); [auto|rewrite WI; discriminate].
      - rewrite H1, W0. cbv zeta. replace (bytes_eqb k (str "1")) with false by (symmetry; apply bytes_eqb_false; auto).
        cbn [bindp]. apply ac_bind; [|intro; apply install_ins]. apply ins_insert; [|auto]. intros (_ & F). destruct rid; discriminate. }
    destruct (0 <? Z.of_N (w_hlen sl) - Z.of_N (len v))%Z eqn:EZ.
    + destruct (5 <=? Z.of_N (w_hlen sl) - Z.of_N (len v))%Z eqn:E5; cbn [assert bindp]; [|exact I].
      destruct (hset_ret prefix hd "z" (repeat 95 (Z.to_nat (Z.of_N (w_hlen sl) - Z.of_N (len v) - 5)))) as (h' & E & G' & I' & GG & _); [auto|reflexivity| |].
      { clear. induction (Z.to_nat _) as [|n IH]; [apply goodb_val; reflexivity|]. cbn [repeat]. apply (goodval_app [95]); [apply goodb_val; reflexivity|auto]. }
      rewrite E. cbn [bindp]. unfold hser. destruct (Gzip_Vsb _ _ _); cbn [lift bindp]; try exact I. apply K. rewrite GG. reflexivity.
    + apply K. reflexivity.
Qed.

Lemma commit_loop_ins fid whole size s : goodval fid -> len fid = c_idsize C -> forall sgs ds i aa, 1 <= i ->
  comms s fid whole i sgs ds -> forall pl, incl (places sgs) pl -> allcalls (insc fid pl) (commit_loop C L aa fid size sgs).
Proof.
  intros GF LF. induction sgs as [|sg r IH]; intros ds i aa Hi HC pl IC; cbn [commit_loop]; [exact I|].
  destruct ds as [|d rd]; [contradiction|]. destruct HC as (HC & HR).
  destruct HC as (A1 & A2 & A3 & A4 & A5 & A6 & A7 & A8 & A9 & A10 & A11 & A12 & A13 & A16 & _).
  assert (K : forall h, hgood h -> h_id h = h_id (sg_hdr sg) -> hget h "WARC-Segment-Number" = Some (dec i) ->
    allcalls (insc fid pl) (
      let! (h, rid) :=
        match r with
        | [] => let! h := hset h "WARC-Segment-Total-Length" (dec size) in Ret (h, None)
        | n :: _ => Ret (h, Some (Header_Get_Id (sg_hdr n)))
        end in
      let! aa := Wsilo_Commit C L aa (sg_silo sg) h true (Header_Get_Id h) rid in
      commit_loop C L aa fid size r)).
  { intros h G Hid HS.
    assert (K2 : forall h2 rid, hgood h2 -> h_id h2 = h_id (sg_hdr sg) -> hget h2 "WARC-Segment-Number" = Some (dec i) ->
      allcalls (insc fid pl) (let! aa := Wsilo_Commit C L aa (sg_silo sg) h2 true (Header_Get_Id h2) rid in commit_loop C L aa fid size r)).
    { intros h2 rid G2 H2 S2. apply ac_bind; [|intros aa'; eapply IH; [|exact HR|]; [lia|intros x X; apply IC; right; exact X]].
      apply commit_ins; [auto|rewrite A8; destruct (flag_cases (StoreJob.stype typ i)) as [->|[->|[->| ->]]]; reflexivity|intros _; apply IC; left; reflexivity|].
      destruct (N.eq_dec i 1) as [E|E].
      - left. unfold Header_Get_Id. rewrite H2. apply A13. auto.
      - right. split; [auto|]. split; [rewrite A8; unfold StoreJob.stype; replace (i =? 1) with false by lia; reflexivity|].
        exists (dec i). split; [auto|]. intros X. apply E. apply dec_inj. exact X. }
    destruct r as [|n r].
    - destruct (hset_ret prefix h "WARC-Segment-Total-Length" (dec size)) as (h' & E & G' & I' & GG & _);
        [auto|reflexivity|apply goodval_dec|]. rewrite E. cbn [bindp]. apply K2; [auto|congruence|]. rewrite GG. exact HS.
    - cbn [bindp]. apply K2; auto. }
  rewrite A4. destruct (i =? 1) eqn:X.
  - destruct (hset_ret prefix (sg_hdr sg) "WARC-Segment-Number" (str "1")) as (h' & E & G' & I' & GG & _);
      [auto|reflexivity|apply goodb_val; reflexivity|]. rewrite E. cbn [bindp]. apply K; auto. rewrite GG. names. replace i with 1 by lia. reflexivity.
  - destruct (set_ref_ret' (sg_hdr sg) fid "WARC-Segment-Origin-ID") as (h' & E & G' & I' & GG & _); [auto|reflexivity|auto|auto|].
    rewrite E. cbn [lift bindp]. apply K; auto. rewrite GG. names. auto.
Qed.

Definition segjob_post (data a : bytes) (s' : fs) : Prop := exists id, a = prefix ++ id /\ Forall (fun c => is_hex c = true) id /\
  len id = c_idsize C /\ segid C L hdr typ ident 1 data id /\
  ((exists p r, stored_as C L s' typ id data (p :: r) /\ pfirst 1 id p) \/ known s' id).

(* the segments when the identifier is known *)
Definition named_job (pay : bytes) (x : cachev * segjob L * segment * list segment) (own : list N) (s : fs) : Prop :=
  let '(aa, sj, sg', r) := x in exists sg h d rd,
    cache_ok C s aa /\ (jinv s own sj (d :: rd) /\ Forall (fun d => d <> []) (d :: rd)) /\ sj_cur L sj = None /\ sj_pay L sj = pay /\ sj_done L sj = sg :: r /\
    sg' = mkS (sg_no sg) h (sg_silo sg) (sg_size sg) /\ hgood h /\ hlen prefix h <= 2800 /\
    segid C L hdr typ ident 1 (sj_pay L sj) (h_id h) /\
    (forall m, samename m "WARC-Payload-Digest" = false -> hget h m = hget (sg_hdr sg) m) /\
    match r with
    | [] => h = sg_hdr sg
    | _ => hget h "WARC-Payload-Digest" = Some (str "sha256:" ++ z_sha L (sj_pay L sj))
    end.

Lemma segjob_ident_ok s own aa sj dn : jinv s own sj dn -> cache_ok C s aa -> len (sj_pay L sj) < 2 ^ 62 -> full L sj dn -> sj_cur L sj <> None ->
  wpD (named_job (sj_pay L sj)) own s (segjob_ident C L aa sj).
Proof.
  intros J CK SZ FU NC. unfold segjob_ident, SegJob_Feed.
  eapply wp_seq; [apply (feed_loop_ok C L CO ZO D DA DF hdr typ ident BO _ aa sj [] own s dn); auto; [constructor|rewrite len_nil; lia]|]. cbn beta.
  intros (aa1, sj1) own1 s1 (CK1 & (ds & J1 & FD) & P & _ & _ & X). cbn [fst snd] in *. destruct (FD (or_intror NC)) as (FD' & _). clear FD FU NC. rename FD' into FD. rewrite app_nil_r in P. destruct (X eq_refl) as (_ & CN). clear X.
  pose proof J1 as (A1 & A2 & A3 & A4 & A5 & A6 & A7 & A8). rewrite CN in A8. destruct A8 as (PP & SO & IN0 & NN).
  apply wp_assert; auto. intros NZ. rewrite <- P in *. clear P J sj CK aa s own. rename sj1 into sj, own1 into own, s1 into s, aa1 into aa.
  destruct (sj_done L sj) as [|sg r] eqn:ED; [cbn [wp]; auto|]. destruct ds as [|d rd]; [contradiction|]. cbn [StoreJob.dones] in A5.
  destruct A5 as [DO DR]. pose proof DO as ((B1 & B2 & B3 & B4 & B5 & B6 & B7 & B8 & B9 & B10) & C2 & C3 & C4 & C5 & C6 & C7 & hb & C8 & C9).
  change (1 =? 1) with true in *. unfold StoreJob.stype in B5, C4. change (1 =? 1) with true in *. cbv iota in B5, B6, C4.
  cbn [List.length] in NN.
  apply wp_seq with (R := fun h o s' => o = own /\ s' = s /\ hgood h /\ hlen prefix h <= 2800 /\
    segid C L hdr typ ident 1 (sj_pay L sj) (h_id h) /\
    (forall m, samename m "WARC-Payload-Digest" = false -> hget h m = hget (sg_hdr sg) m) /\
    match r with
    | [] => h = sg_hdr sg
    | _ => hget h "WARC-Payload-Digest" = Some (str "sha256:" ++ z_sha L (sj_pay L sj))
    end).
  { destruct r as [|sg2 r].
    - replace (1 <? sj_nseg L sj) with false by (cbn [List.length] in NN; lia). cbn [wp]. split; [auto|]. split; [auto|]. split; [auto|]. split; [lia|].
      split; [|split; auto]. destruct rd; [|contradiction]. rewrite PP. cbn [List.concat]. rewrite app_nil_r. auto.
    - replace (1 <? sj_nseg L sj) with true by (cbn [List.length] in NN; lia). cbv zeta.
      destruct (hset_ret prefix (sg_hdr sg) "WARC-Payload-Digest" (str "sha256:" ++ z_sha L (sj_pay L sj))) as (h' & E & G & I & GG & LL);
        [auto|reflexivity|apply goodval_sha; auto|]. rewrite E. cbn [bindp]. apply wp_lift; auto. intros h EI.
      assert (LI : len (h_id h) = c_idsize C).
      { clear - EI. unfold Ident_Set in EI. assert (Y : forall id, Header_Set_Id (c_idsize C) h' id = Ok h -> len (h_id h) = c_idsize C).
        { intros id. unfold Header_Set_Id, guard. destruct (forallb is_graph id); [|discriminate]. cbn [bind]. destruct (c_idsize C <=? len id) eqn:Y; [|discriminate].
          cbn [bind]. intros Z. injection Z as <-. cbn [h_id]. unfold len in *. rewrite firstn_length. lia. }
        destruct (sj_ident L sj) as [x|].
        - destruct (IDX_Valid_Id _ _ _); try discriminate. eauto.
        - destruct (Ident_Create _ _ _ _); try discriminate. cbn [bind] in EI. eauto. }
      apply ident_set_cases in EI; auto. destruct EI as (EF & EX).
      assert (HH : forall m, hget h m = hget h' m) by (intros q; unfold hget, Header_Get; rewrite EF; auto).
      split; [auto|]. split; [auto|]. split; [unfold hgood; rewrite EF; apply G|]. split.
      + rewrite hlen_eq, EF, LI. rewrite hlen_eq, I, B3 in LL. unfold Header_Len in LL. rewrite len_str_app, len_sha in LL by auto.
        change (len (str "WARC-Payload-Digest")) with 19 in LL. cbn [String.length] in LL. lia.
      + split; [|split; [intros m Hm; rewrite HH, GG, Hm; auto|rewrite HH, GG; names; auto]].
        unfold segid. change (1 =? 1) with true. cbv iota. rewrite A2 in EX. destruct ident as [x|]; auto. destruct EX as (x & E1 & E2 & E3).
        exists x. split; [auto|]. unfold StoreJob.stype. change (1 =? 1) with true. cbv iota.
        assert (Ht : hget h' "WARC-Type" = Some typ) by (rewrite GG; names; auto).
        assert (Hr : hget h' "WARC-Refers-To" = hget hdr "WARC-Refers-To") by (rewrite GG; names; auto).
        rewrite Ht in E2, E3. rewrite Hr in E2. split; intros Y; [apply E2|apply E3]; congruence. }
  cbn beta. intros h o s' (-> & -> & G1 & G2 & G3 & G4 & G5). cbn [wp]. unfold named_job.
  exists sg, h, d, rd. split; [auto|]. split; [split; [exact J1|exact FD]|]. split; [auto|]. split; [auto|]. split; [auto|]. split; [auto|]. split; [auto|]. split; [auto|]. split; [auto|]. split; [auto|]. exact G5.
Qed.

Lemma named_quiet pay aa sj sg' r own s : named_job pay (aa, sj, sg', r) own s ->
  (forall n, In n (silos (sg' :: r)) -> quiet C L s n) /\ NoDup (silos (sg' :: r)) /\ same (silos (sg' :: r)) own.
Proof.
  intros (sg & h & d & rd & CK & (J1 & _) & CN & P & ED & -> & _). pose proof J1 as (A1 & A2 & A3 & A4 & A5 & A6 & A7 & A8). rewrite CN in A8.
  destruct A8 as (PP & SO & IN0 & NN). rewrite ED in *. change (silos (_ :: r)) with (silos (sg :: r)). split; [|split; auto].
  cbn [StoreJob.dones] in A5. destruct A5 as [DO DR]. pose proof DO as (_ & _ & _ & _ & _ & _ & _ & hb & C8 & _).
  intros n [<-|Hn]; [apply C8|]. clear - DR Hn. revert DR. generalize (1 + 1) as i. revert rd. induction r as [|x r IH]; intros [|y rd] i H; cbn [StoreJob.dones silos map] in *; try contradiction.
  destruct H as [(_ & _ & _ & _ & _ & _ & _ & hb & Q & _) H]. destruct Hn as [<-|Hn]; [apply Q|]. eapply IH; eauto.
Qed.

(* with the entries inserted *)
Definition segjob_tr (data : bytes) (x : bytes * list ixent) (s' : fs) : Prop := exists id, fst x = prefix ++ id /\ Forall (fun c => is_hex c = true) id /\
  len id = c_idsize C /\ segid C L hdr typ ident 1 data id /\
  ((exists p r, stored_as C L s' typ id data (p :: r) /\ pfirst 1 id p /\ Forall (ins_ok id (match r with [] => [] | _ => map place (p :: r) end)) (snd x)) \/ known s' id /\ snd x = []).

Lemma SegJob_Commit_ok s own aa sj dn : jinv s own sj dn -> cache_ok C s aa -> full L sj dn -> sj_cur L sj <> None -> (typ = str "resource" -> ident = None) ->
  len (sj_pay L sj) < 2 ^ 62 ->
  wpD (fun x o s' => o = [] /\ segjob_tr (sj_pay L sj) x s') own s (tr [] (SegJob_Commit C L aa sj)).
Proof.
  intros J0 CK0 FU0 NC0 HI SZ. unfold SegJob_Commit.
  eapply tr_seq; [apply (segjob_ident_ok s own aa sj dn); auto|apply ident_hl|]. cbn beta. intros (((aa1, sj1), sg'), r) own1 s1 NJ.
  destruct (named_quiet _ _ _ _ _ _ _ NJ) as (QU & _).
  clear FU0 NC0. destruct NJ as (sg & h & d & rd & CK & (J1 & FD) & CN & P & ED & -> & G1 & G2 & G3 & G4 & G5).
  pose proof J1 as (A1 & A2 & A3 & A4 & A5 & A6 & A7 & A8). rewrite CN in A8. destruct A8 as (PP & SO & IN0 & NN).
  rewrite <- P in *. clear P J0 sj CK0 aa s own. rename sj1 into sj, own1 into own, s1 into s, aa1 into aa.
  rewrite ED in *. cbn [StoreJob.dones] in A5.
  destruct A5 as [DO DR]. pose proof DO as ((B1 & B2 & B3 & B4 & B5 & B6 & B7 & B8 & B9 & B10) & C2 & C3 & C4 & C5 & C6 & C7 & hb & C8 & C9).
  change (1 =? 1) with true in *. unfold StoreJob.stype in B5, C4. change (1 =? 1) with true in *. cbv iota in B5, B6, C4.
  cbn [List.length] in NN. cbv zeta. unfold Header_Get_Id. cbn [sg_hdr sg_silo].
  change (silos (_ :: r)) with (silos (sg :: r)) in QU.
  destruct (Digest2Ident (c_prefix C) (c_idsize C) (h_id h)) as [a| | |] eqn:EA; cbn [lift bindp tr wp]; auto. apply d2i in EA. destruct EA as (-> & HX & LX).
  eapply tr_seq; [apply GetJob_New_ok|apply getjob_hl|]. cbn beta. intros gj o s1 (-> & R1 & K).
  assert (HD : forall n, In n (silos (sg :: r)) -> In n own) by (intros n; apply SO).
  destruct gj as [gj|].
  - eapply tr_seq; [apply wp_grow; apply (destroy_ok _ own s1)|apply destroy_hl|].
    + intros n Hn. change (silos (_ :: r)) with (silos (sg :: r)) in Hn. destruct R1 as (R1 & _). destruct (R1 n (HD n Hn)) as (E1 & _ & E3). unfold quiet. rewrite E1.
      eapply settled_perm; [apply Permutation_sym; exact E3|]. apply QU. auto.
    + exact A6.
    + exact SO.
    + cbn beta. intros _ o s2 ((-> & R2) & _). cbn [wp tr]. split; [auto|]. exists (h_id h). split; [auto|]. split; [auto|]. split; [auto|]. split; [auto|]. right.
      destruct K as (nid & K1 & K2); [discriminate|]. apply hex_valid in K1; auto. subst nid. split; [|reflexivity]. eapply known_rely; eauto.
  - clear K. assert (CK3 : cache_ok C s1 aa) by (eapply cache_rely; eauto).
    destruct r as [|sg2 r].
    + replace (sj_nseg L sj =? 1) with true by (cbn [List.length] in NN; lia). subst h.
      assert (RD : ready C L (sg_silo sg) (sg_hdr sg) typ d).
      { unfold ready. split; [split; (apply has_get; [apply G1|auto])|]. split.
        - unfold named. cbn [wr_hdr wr_data]. split; [|split; [|exact LX]].
          + intros T. apply has_get in T; [|apply G1].
            exists (z_sha L d). split; [|left; split; [apply hasnt_get; auto|split; [apply hasnt_get; auto|auto]]].
            unfold segid in C7. change (1 =? 1) with true in C7. cbv iota in C7. rewrite HI in C7 by congruence. destruct C7 as (x & -> & _ & E). rewrite E; auto.
            unfold StoreJob.stype. change (1 =? 1) with true. cbv iota. intros Y. rewrite B5 in T. rewrite Y in T. discriminate.
          + left. cbn [wr_hdr]. split; [|left; apply hasnt_get; auto]. destruct BO as (_ & _ & _ & _ & _ & BT & _ & _ & _ & BR).
            destruct BT as [BT|BT]; [left; apply has_get; [apply G1|congruence]|right]. split; [apply has_get; [apply G1|congruence]|].
            destruct (BR BT) as (ref & ER). exists ref. apply has_get; [apply G1|]. rewrite B9. exact ER.
        - split; [auto|]. split; [apply hex_id; auto|]. split; [lia|]. split; [auto|]. split; [apply (stype_nw 1)|auto]. }
      apply tr_bind. eapply wp_conseq; [|apply (tr_all (inv C L) D (ins_ok (h_id (sg_hdr sg)) [])); [eapply (wp_same C L D); [|apply (commit_ok C L CO ZO D DA s1 (sg_silo sg) hb d aa (sg_hdr sg) typ false None)]| |constructor]].
      8: { apply commit_ins; [auto|rewrite C4; destruct (flag_cases typ) as [->|[->|[->| ->]]]; reflexivity|discriminate|auto]. }
      2: exact SO.
      2: { eapply mine_rely; [|exact C8|exact R1]. apply HD. left. auto. }
      2-4: auto.
      2: { cbn [segok]. auto. }
      * cbn beta. intros [aa2 li] o s2 ((o' & S' & -> & CK2 & n & o0 & hd & e & IA & EC & G6 & I6 & _ & K6) & FI). cbn [fst snd] in *. cbn [wp tr]. split.
        { destruct o as [|x o]; auto. exfalso. apply (S' x). left. auto. }
        exists (h_id (sg_hdr sg)). split; [auto|]. split; [auto|]. split; [auto|]. split; [auto|]. left.
        exists (mkPart n o0 (mkRec hd d) e), []. split.
        { split; [split; [cbn [map p_rec wr_data List.concat]; rewrite PP; destruct rd; [auto|contradiction]|constructor; [cbn [p_rec wr_data]; inversion FD; auto|constructor]]|]. cbn [p_silo p_off p_rec p_ent wr_hdr].
          split; [apply has_get; [apply G6|rewrite K6 by reflexivity; auto]|]. split; [auto|]. split; [unfold p_id; cbn [p_rec wr_hdr]; auto|].
          split; [|split]; apply hasnt_get; rewrite K6 by reflexivity; auto. }
        { split; [|exact FI]. unfold pfirst, p_id. cbn [p_rec wr_hdr]. split; [auto|]. split; [|split]; [|intros v Hv..]; apply has_get; try apply G6; rewrite K6 by reflexivity; auto; congruence. }
    + replace (sj_nseg L sj =? 1) with false by (cbn [List.length] in NN; lia). rewrite A3.
      set (sg' := mkS (sg_no sg) h (sg_silo sg) (sg_size sg)).
      assert (CM : comms s1 (h_id h) (sj_pay L sj) 1 (sg' :: sg2 :: r) (d :: rd)).
      { eapply comms_rely; [exact HD| |exact R1]. split; [|apply dones_comms; auto; lia].
        unfold comm, sg'. cbv zeta. cbn [sg_no sg_hdr sg_silo sg_size]. change (1 =? 1) with true. cbv iota.
        unfold StoreJob.stype. change (1 =? 1) with true. cbv iota.
        split; [auto|]. split; [lia|]. split; [apply hex_id; auto|]. split; [auto|]. rewrite !G4 by reflexivity.
        split; [auto|]. split; [auto|]. split; [auto|]. split; [auto|]. split; [auto|]. split; [auto|]. split; [auto|]. split; [auto|]. split; [|split; [lia|eauto]].
        intros _. split; [auto|]. split; [auto|]. intros T. unfold segid in G3. change (1 =? 1) with true in G3. cbv iota in G3. rewrite HI in G3 by auto.
        destruct G3 as (x & -> & _ & E). rewrite E; auto. unfold StoreJob.stype. change (1 =? 1) with true. cbv iota. rewrite T. discriminate. }
      apply tr_bind. eapply wp_conseq; [|apply (tr_all (inv C L) D (ins_ok (h_id h) (places (sg' :: sg2 :: r)))); [apply (commit_loop_ok (h_id h) (sj_pay L sj)) with (i := 1) (ds := d :: rd)| |constructor]].
      2: { apply goodval_hex. auto. }
      2-4: auto; lia.
      2-5: auto.
      2: discriminate.
      2: { eapply commit_loop_ins; [apply goodval_hex; auto|auto| |exact CM|apply incl_refl]. lia. }
      cbn beta. intros [aa2 li] o s2 ((-> & ps & (H1 & HP) & H2 & H3) & FI). cbn [fst snd] in *. cbn [wp tr]. split; [auto|].
      exists (h_id h). split; [auto|]. split; [auto|]. split; [auto|]. split; [auto|]. left.
      destruct ps as [|p ps]; [contradiction|]. exists p, ps. split; [|split; [exact H3|destruct ps; [discriminate HP|rewrite HP; exact FI]]]. destruct H3 as (H3 & H4 & _).
      split; [split; [unfold pdata in H2; rewrite H2; auto|]|].
      { apply Forall_forall. intros q Hq. rewrite Forall_forall in FD. apply FD. rewrite <- H2. apply (in_map (fun p => wr_data (p_rec p))). exact Hq. }
      split; [exact H4|]. destruct ps; [|exact H1].
      exfalso. destruct rd; [contradiction|]. discriminate.
Qed.
End Base.

(** * main_store *)

Lemma lower_clean a b : lower a = lower b -> goodval b -> goodval a.
Proof.
  intros E ((H1 & H2) & H3). assert (X : forall c, In c a -> exists c', In c' b /\ to_lower c = to_lower c').
  { intros c Hc. assert (Y : In (to_lower c) (lower b)) by (rewrite <- E; apply in_map; auto). apply in_map_iff in Y. destruct Y as (c' & Y1 & Y2). eauto. }
  unfold to_lower, is_upper in X. split; [split|].
  - intros Hc. destruct (X _ Hc) as (c' & Y1 & Y2). destruct ((65 <=? c') && (c' <=? 90)) eqn:Y; cbn in Y2; [lia|]. congruence.
  - intros Hc. destruct (X _ Hc) as (c' & Y1 & Y2). destruct ((65 <=? c') && (c' <=? 90)) eqn:Y; cbn in Y2; [lia|]. congruence.
  - apply Forall_forall. intros c Hc. destruct (X _ Hc) as (c' & Y1 & Y2). unfold is_bytes in H3. rewrite Forall_forall in H3. apply H3 in Y1.
    destruct ((65 <=? c) && (c <=? 90)) eqn:Z1, ((65 <=? c') && (c' <=? 90)) eqn:Z2; lia.
Qed.

Lemma lower_len a b : lower a = lower b -> len a = len b.
Proof. intros E. apply (f_equal (@List.length N)) in E. unfold lower in E. rewrite !map_length in E. unfold len. lia. Qed.

Lemma valid_good id nid : IDX_Valid_Id prefix (c_idsize C) id = IdOk nid -> goodval id /\ len id <= 500 + 64.
Proof.
  pose proof (co_idsize C CO) as I. destruct (co_prefix C CO) as ((P1 & _) & P2 & P3).
  unfold IDX_Valid_Id. intros E.
  assert (X : (strip_prefix prefix id = id \/ exists p, id = p ++ strip_prefix prefix id /\ lower p = lower prefix)).
  { unfold strip_prefix. destruct (ncaseeq _ _ _) eqn:Y; auto. right. exists (firstn (List.length prefix) id). split; [symmetry; apply firstn_skipn|].
    unfold ncaseeq in Y. apply caseeq_lower in Y. rewrite Y, firstn_all. auto. }
  destruct (existsb _ _); [discriminate|]. destruct (forallb is_hex (strip_prefix prefix id)) eqn:H; [|discriminate]. cbn [negb] in E.
  destruct (_ <? _) eqn:L1; [discriminate|]. destruct (_ <? _) eqn:L2 in E; [discriminate|].
  assert (G : goodval (strip_prefix prefix id)) by (apply goodval_hex; apply Forall_forall; intros c Hc; rewrite forallb_forall in H; auto).
  destruct X as [X|(p & X & Y)].
  - rewrite X in *. split; [auto|lia].
  - rewrite X. split; [apply goodval_app; auto; eapply lower_clean; eauto; split; auto|]. rewrite len_app, (lower_len _ _ Y). lia.
Qed.

Definition store_post (r : request) (a : bytes) (s : fs) : Prop := exists id,
  a = prefix ++ id /\ Forall (fun c => is_hex c = true) id /\ len id = c_idsize C /\ req_id C (z_sha L) r id /\
  (r_meta r = true -> exists rid, IDX_Valid_Id prefix (c_idsize C) (full_ref C r) = IdOk rid /\ known s rid) /\
  ((exists p rest, stored_as C L s (req_type r) id (List.concat (r_data r)) (p :: rest) /\
      has (wr_hdr (p_rec p)) "Content-Type" (r_mime r) /\
      (r_meta r = true -> has (wr_hdr (p_rec p)) "WARC-Refers-To" (str "<" ++ full_ref C r ++ str ">"))) \/
   known s id).

(* a job with everything fed to it *)
Definition fed (r : request) (x : cachev * segjob L) (own : list N) (s : fs) : Prop := exists h dn,
  base_ok C h (req_type r) /\ cache_ok C s (fst x) /\ (jinv C L h (req_type r) (r_ident r) s own (snd x) dn /\ full L (snd x) dn /\ sj_cur L (snd x) <> None) /\
  sj_pay L (snd x) = List.concat (r_data r) /\ hget h "Content-Type" = Some (r_mime r) /\
  (r_meta r = false -> r_ident r = None) /\
  (r_meta r = true -> hget h "WARC-Refers-To" = Some (str "<" ++ full_ref C r ++ str ">") /\
     exists rid, IDX_Valid_Id prefix (c_idsize C) (full_ref C r) = IdOk rid /\ known s rid).

Lemma store_feed_ok s r : request_ok r -> wpD (fed r) [] s (store_feed C L r).
Proof.
  intros RO. pose proof (co_idsize C CO) as CI. destruct (co_prefix C CO) as ((P1 & _) & P2 & P3).
  unfold store_feed.
  apply wp_seq with (R := fun ref o s' => o = [] /\ s' = s /\ (r_meta r = false -> r_ident r = None) /\
    ref = (if r_meta r then Some (full_ref C r) else None) /\ (r_meta r = true -> goodval (full_ref C r) /\ len (full_ref C r) <= 564)).
  { destruct (r_meta r).
    - apply wp_seq with (R := fun _ o s' => o = [] /\ s' = s).
      { destruct (r_ident r); [destruct (valid_id C b)|]; cbn [wp]; auto. }
      cbn beta. intros _ o s' (-> & ->). unfold valid_id. destruct (IDX_Valid_Id prefix (c_idsize C) (r_ref r)) as [nid| | | |] eqn:V; cbn [negb wp]; auto.
      apply valid_good in V. unfold full_ref. destruct (len (r_ref r) =? c_idsize C) eqn:EL.
      + apply lift_any. intros x Ex. apply d2i in Ex. destruct Ex as (-> & _). cbn [wp]. split; [auto|]. split; [auto|]. split; [discriminate|]. split; [auto|].
        intros _. split; [apply goodval_app; [split; auto|tauto]|]. rewrite len_app. lia.
      + cbn [wp]. split; [auto|]. split; [auto|]. split; [discriminate|]. split; [auto|]. intros _. split; [tauto|lia].
    - destruct (r_ident r); cbn [wp]; auto. split; [auto|]. split; [auto|]. split; [auto|]. split; [auto|]. discriminate. }
  cbn beta. intros ref o s' (-> & -> & HI & -> & HR).
  destruct (r_data r) as [|d0 dr] eqn:ED; [cbn [wp]; auto|]. rewrite <- ED.
  apply wp_time. intros s1 date R1 (DL & DC & DB).
  destruct RO as [RM RD RS]. destruct RM as (RM1 & RM2 & RM3).
  set (typ := req_type r).
  assert (G0 : hgood (Header_New (c_idsize C))) by (split; constructor).
  destruct (hset_ret prefix (Header_New (c_idsize C)) "WARC-Date" date) as (h1 & E1 & G1 & I1 & K1 & L1); [auto|reflexivity|split; auto|].
  rewrite E1. cbn [bindp].
  destruct (hset_ret prefix h1 "Content-Type" (r_mime r)) as (h2 & E2 & G2 & I2 & K2 & L2); [auto|reflexivity|split; auto|].
  rewrite E2. cbn [bindp].
  destruct (hset_ret prefix h2 "WARC-Type" typ) as (h3 & E3 & G3 & I3 & K3 & L3); [auto|reflexivity| |].
  { unfold typ, req_type. destruct (r_meta r); split; try split; vm_compute; try (repeat constructor; fail); intuition discriminate. }
  unfold typ, req_type in E3. rewrite E3. cbn [bindp]. fold (req_type r) in E3. fold typ in E3.
  assert (LN : forall n, Header_Get (Header_New (c_idsize C)) n = None) by reflexivity.
  assert (LT : len typ = 8) by (unfold typ, req_type; destruct (r_meta r); reflexivity).
  assert (L0 : hlen prefix (Header_New (c_idsize C)) <= 596).
  { rewrite hlen_eq. cbn [Header_New h_id h_fields]. change (fsum []) with 0. unfold len at 2. rewrite repeat_length. lia. }
  apply wp_seq with (R := fun h o s' => o = [] /\ hgood h /\ hlen prefix h <= 1750 /\ h_id h = h_id h3 /\
     (forall m, samename m "WARC-Refers-To" = false -> hget h m = hget h3 m) /\
     (r_meta r = true -> hget h "WARC-Refers-To" = Some (str "<" ++ full_ref C r ++ str ">") /\
        exists rid, IDX_Valid_Id prefix (c_idsize C) (full_ref C r) = IdOk rid /\ known s' rid)).
  { unfold Header_Len in L1, L2, L3. change (len (str "WARC-Date")) with 9 in L1. change (len (str "Content-Type")) with 12 in L2. change (len (str "WARC-Type")) with 9 in L3.
    destruct (r_meta r).
    - destruct (HR eq_refl) as (HR1 & HR2). eapply wp_seq; [apply GetJob_New_ok|]. cbn beta. intros [gj|] o s2 (-> & R2 & KN); [|cbn [wp]; auto].
      destruct (hset_ret prefix h3 "WARC-Refers-To" ([60] ++ full_ref C r ++ [62])) as (h4 & E4 & G4 & I4 & K4 & L4); [auto|reflexivity| |].
      { apply goodval_app; [|apply goodval_app; auto]; split; try split; try (intros [X|[]]; discriminate); repeat constructor. }
      rewrite E4. cbn [wp]. split; [auto|]. split; [auto|]. split.
      { unfold Header_Len in L4. change (len (str "WARC-Refers-To")) with 14 in L4. rewrite !len_app, !len_cons, !len_nil in L4. lia. }
      split; [auto|]. split; [intros m Hm; rewrite K4, Hm; auto|]. intros _. split; [rewrite K4; names; auto|]. apply KN. discriminate.
    - cbn [wp]. split; [auto|]. split; [auto|]. split; [lia|]. split; [auto|]. split; [auto|]. discriminate. }
  cbn beta. intros h o s2 (-> & G4 & L4 & I4 & K4 & R4).
  assert (HT : forall m, samename m "WARC-Refers-To" = false -> samename m "WARC-Type" = false -> samename m "Content-Type" = false -> samename m "WARC-Date" = false ->
    hget h m = None).
  { intros m A1 A2 A3 A4. rewrite K4, K3, A2, K2, A3, K1, A4; auto. }
  assert (BO : base_ok C h typ).
  { split; [auto|]. split; [auto|]. rewrite I4, I3, I2, I1. cbn [Header_New h_id]. split; [unfold len; rewrite repeat_length; lia|].
    split; [apply Forall_forall; intros c Hc; apply repeat_spec in Hc; lia|].
    split; [rewrite K4, K3 by reflexivity; names; auto|]. split; [unfold typ, req_type; destruct (r_meta r); auto|].
    split; [apply HT; reflexivity|]. split; [apply HT; reflexivity|]. split; [apply HT; reflexivity|].
    unfold typ, req_type. destruct (r_meta r); [|discriminate]. intros _. destruct (R4 eq_refl) as (R5 & _). eauto. }
  eapply wp_seq with (R := fun sj o s' => o = [] /\ s' = s2 /\ sj = mkJ L h (r_ident r) 0 [] None [] [] 0 (z_init L) [] ZNone).
  { unfold SegJob_New. cbv zeta. do 8 (apply wp_seq with (R := fun _ o s' => o = [] /\ s' = s2); [unfold assert; dif; cbn [wp]; auto|]; cbn beta; intros _ o s' (-> & ->)).
    cbn [wp]. auto. }
  cbn beta. intros sj0 o s' (-> & -> & ->).
  eapply wp_conseq; [|apply wp_grow; eapply (feed_all_ok h typ (r_ident r) BO (r_data r) (0, 0) _ [] s2 [])].
  - cbn beta. intros (aa, sj) own s3 ((CK & (dn & J & J' & J'') & PY) & R3). cbn [fst snd sj_pay] in *. rewrite app_nil_l in PY. exists h, dn.
    split; [exact BO|]. split; [exact CK|]. split; [split; [exact J|split; [exact J'|apply J''; left; rewrite ED; discriminate]]|]. split; [exact PY|]. split; [rewrite K4, K3, K2 by reflexivity; names; auto|]. split; [auto|].
    intros Hm. destruct (R4 Hm) as (X & rid & V & KN). split; [auto|]. exists rid. split; [auto|]. eapply known_rely; eauto.
  - split; [reflexivity|]. split; [reflexivity|]. split; [reflexivity|]. split; [constructor|]. split; [exact I|]. split; [constructor|]. split; [intros n []|].
    cbn [sj_cur]. split; [reflexivity|]. split; [intros n; reflexivity|]. split; reflexivity.
  - split; [cbn; lia|]. split; [cbn; lia|]. split; intros n Hn; cbn [fst snd] in Hn; lia.
  - exact RD.
  - cbn [sj_pay]. rewrite len_nil. lia.
  - split; [constructor|]. cbn [sj_cur]. congruence.
Qed.

(* the identifier is the one specified *)
Lemma fed_id r h id : base_ok C h (req_type r) ->
  (r_meta r = true -> hget h "WARC-Refers-To" = Some (str "<" ++ full_ref C r ++ str ">")) ->
  segid C L h (req_type r) (r_ident r) 1 (List.concat (r_data r)) id -> req_id C (z_sha L) r id.
Proof.
  intros BO R4 A3. unfold req_id. cbv zeta. unfold segid in A3. change (1 =? 1) with true in A3. cbv iota in A3. destruct (r_ident r) as [i|] eqn:EI; [auto|].
  destruct A3 as (x & -> & A5 & A6). unfold StoreJob.stype in A5, A6. change (1 =? 1) with true in A5, A6. cbv iota in A5, A6.
  unfold req_type in A5, A6. destruct (r_meta r).
  - destruct A5 as (rf & E & ->); [auto|]. rewrite R4 in E by auto. injection E as <-. auto.
  - rewrite A6 by discriminate. auto.
Qed.

(* what the first segment says of the object *)
Definition described (r : request) (p : part) : Prop :=
  has (wr_hdr (p_rec p)) "Content-Type" (r_mime r) /\
  (r_meta r = true -> has (wr_hdr (p_rec p)) "WARC-Refers-To" (str "<" ++ full_ref C r ++ str ">")).

(* the entries inserted: none, or the object is stored *)
Definition inserted (r : request) (x : bytes * list ixent) (s : fs) : Prop :=
  snd x = [] \/ exists id p rest, fst x = prefix ++ id /\ req_id C (z_sha L) r id /\
    len id = c_idsize C /\ stored_as C L s (req_type r) id (List.concat (r_data r)) (p :: rest) /\
    Forall (ins_ok id (match rest with [] => [] | _ => map place (p :: rest) end)) (snd x) /\ described r p.

Lemma main_store_tr s r : request_ok r ->
  wpD (fun x o s' => o = [] /\ store_post r (fst x) s' /\ inserted r x s') [] s (tr [] (main_store C L r)).
Proof.
  intros RO. unfold main_store. eapply tr_seq; [apply store_feed_ok; auto|apply store_feed_hl|]. cbn beta.
  intros (aa, sj) own s3 (h & dn & BO & CK & (J & FU & NC) & PY & CT & HI & R4). cbn [fst snd] in *.
  eapply wp_conseq; [|apply wp_grow; apply (SegJob_Commit_ok h (req_type r) (r_ident r) BO s3 own aa sj dn J CK FU NC)].
  - cbn beta. rewrite PY. intros [a li] o s4 ((-> & id & A0 & A1 & A2 & A3 & A4) & R5). cbn [fst snd] in *. subst a.
    assert (RI : req_id C (z_sha L) r id) by (apply (fed_id r h); auto; intros Hm; apply R4; auto).
    split; [auto|]. split.
    + exists id. split; [auto|]. split; [auto|]. split; [auto|].
      split; [auto|]. split.
      * intros Hm. destruct (R4 Hm) as (_ & rid & V & KN). exists rid. split; [auto|]. eapply known_rely; [exact R5|]. auto.
      * destruct A4 as [(p & rest & S1 & S2 & _)|(KN & _)]; [left|right; auto]. exists p, rest. split; [auto|].
        unfold pfirst in S2. change (1 =? 1) with true in S2. destruct S2 as (_ & _ & S2 & S3). split.
        -- apply S2. auto.
        -- intros Hm. apply S3. apply R4. auto.
    + unfold inserted. cbn [fst snd]. destruct A4 as [(p & rest & S1 & S3 & S2)|(_ & S2)]; [right|left; auto]. exists id, p, rest.
      repeat (split; [solve [auto]|]). unfold pfirst in S3. change (1 =? 1) with true in S3. destruct S3 as (_ & _ & S3 & S4).
      split; [apply S3; auto|]. intros Hm. apply S4. apply R4. auto.
  - unfold req_type. destruct (r_meta r); [discriminate|auto].
  - rewrite PY. apply (ro_size r RO).
Qed.

Lemma main_store_ok s r : request_ok r -> wpD (fun a o s' => o = [] /\ store_post r a s') [] s (main_store C L r).
Proof.
  intros RO. eapply wp_conseq; [|eapply tr_off; apply (main_store_tr s r RO)]. cbn beta. intros a o s' (l' & H1 & H2 & _). auto.
Qed.
End Main.
