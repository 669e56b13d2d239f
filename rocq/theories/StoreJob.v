(* The functions of segjob.c: cutting a stream into segments. *)
From Coq Require Import String Permutation.
From Coq Require Import ZifyBool ZifyNat ZifyN.
From Verif Require Import Base BaseLemmas ListLemmas IndexModel IndexSpec HeaderModel HeaderSpec HeaderProofs
  InflateSpec InflateProofs GzipModel GzipSpec GzipProofs ProgModel StoreModel StoreSpec StoreSysModel StoreWp StoreSys StoreHdr
  StoreWrite StoreCommit.
Open Scope string_scope.
Open Scope list_scope.
Open Scope N_scope.

(** * The order of what is owned does not matter *)

Definition same (a b : list N) : Prop := forall n, In n a <-> In n b.

Lemma same_rely a b s s' : same a b -> rely a s s' -> rely b s s'.
Proof. intros H. apply rely_mono. intros n. apply H. Qed.

Lemma wp_same {A} C L D (Q : A -> list N -> fs -> Prop) p : forall own own' s, same own own' ->
  wp (inv C L) D Q own s p -> wp (inv C L) D (fun a o s' => exists o', same o' o /\ Q a o' s') own' s p.
Proof.
  induction p as [a|d|c k IH]; intros own own' s S W; cbn [wp] in *.
  - exists own. auto.
  - auto.
  - intros s1 R I. assert (R' : rely own s s1) by (eapply same_rely; [|exact R]; intros n; symmetry; apply S).
    destruct (W s1 R' I) as (A1 & A2 & A3 & A4). split; [|split; [auto|split; [auto|]]].
    + clear - A1 S. destruct c; cbn [legal] in *; auto; try (apply S; auto; fail). split; [apply S|]; apply A1.
    + eapply IH; [|exact A4]. clear - S. destruct c; cbn [own_after]; auto.
      * destruct (snd _); auto. intros m. cbn [In]. specialize (S m). tauto.
      * intros m. split; intros H; apply in_remove in H; apply in_in_remove; try tauto; apply S; tauto.
Qed.

(* something done with part of what is owned *)
Lemma wp_part {A B} C L D (Q1 : A -> list N -> fs -> Prop) (Q : B -> list N -> fs -> Prop) o1 o2 own s p f :
  wp (inv C L) D Q1 o1 s p -> same (o1 ++ o2) own -> (forall n, In n o2 -> f_hold s n <> None /\ ~ In n o1) ->
  (forall a o1' s', Q1 a o1' s' -> rely o2 s s' -> (forall n, In n o2 -> ~ In n o1') ->
     forall own', same (o1' ++ o2) own' -> wp (inv C L) D Q own' s' (f a)) ->
  wp (inv C L) D Q own s (bindp p f).
Proof.
  intros W S H K. eapply wp_seq.
  - eapply wp_same; [exact S|]. apply wp_frame; [exact H|exact W].
  - cbn beta. intros a o s' (o' & S' & o1' & -> & HQ & R & X). eapply K; eauto.
Qed.

Lemma rely_hold own s s' n hb : In n own -> f_hold s n = Some hb -> rely own s s' -> f_hold s' n = Some hb.
Proof. intros Hn H (R & _). destruct (R n Hn) as (_ & -> & _). auto. Qed.

Section Job.
Variable C : conf.
Variable L : zlib.
Hypothesis CO : conf_ok C.
Hypothesis ZO : zlib_ok L.
Variable D : death -> Prop.
Hypothesis DA : D DAbort.
Hypothesis DF : D DFuel.
Notation wpD := (wp (inv C L) D).
Notation prefix := (c_prefix C).

(** * Headers of segments *)

Section Base.
Variable hdr : header.      (* sj->hdr *)
Variable typ : bytes.       (* its WARC-Type *)
Variable ident : option bytes.

Definition base_ok : Prop :=
  hgood hdr /\ hlen prefix hdr <= 1750 /\ len (h_id hdr) = c_idsize C /\ is_bytes (h_id hdr) /\
  hget hdr "WARC-Type" = Some typ /\ (typ = str "resource" \/ typ = str "metadata") /\
  hget hdr "WARC-Segment-Number" = None /\ hget hdr "WARC-Payload-Digest" = None /\
  hget hdr "WARC-Segment-Total-Length" = None /\
  (typ = str "metadata" -> exists ref, hget hdr "WARC-Refers-To" = Some ref).

Definition stype (i : N) : bytes := if i =? 1 then typ else str "continuation".

Definition seghdr (i : N) (h : header) (l : N) : Prop :=
  hgood h /\ hlen prefix h <= l /\ len (h_id h) = c_idsize C /\ is_bytes (h_id h) /\
  hget h "WARC-Type" = Some (stype i) /\
  hget h "WARC-Segment-Number" = (if i =? 1 then None else Some (dec i)) /\
  hget h "WARC-Payload-Digest" = None /\ hget h "WARC-Segment-Total-Length" = None /\
  hget h "WARC-Refers-To" = hget hdr "WARC-Refers-To" /\ hget h "Content-Type" = hget hdr "Content-Type".

Definition segid (i : N) (data id : bytes) : Prop :=
  match (if i =? 1 then ident else None) with
  | Some x => id = firstn (N.to_nat (c_idsize C)) x
  | None => exists x, id = firstn (N.to_nat (c_idsize C)) (z_sha L x) /\
      (stype i = str "metadata" -> exists ref, hget hdr "WARC-Refers-To" = Some ref /\ x = ref ++ [10] ++ z_sha L data ++ [10]) /\
      (stype i <> str "metadata" -> x = data)
  end.

(* a finished segment *)
Definition done_ok (s : fs) (i : N) (sg : segment) (data : bytes) : Prop :=
  seghdr i (sg_hdr sg) 2700 /\ sg_no sg = i /\ sg_size sg = len data /\ w_idx (sg_silo sg) = type_flag (stype i) /\
  hget (sg_hdr sg) "Content-Length" = Some (dec (len data)) /\
  hget (sg_hdr sg) "WARC-Block-Digest" = Some (str "sha256:" ++ z_sha L data) /\
  segid i data (h_id (sg_hdr sg)) /\
  exists hb, mine C L s (w_no (sg_silo sg)) hb /\ sealed C L (sg_silo sg) data hb.

Fixpoint dones (s : fs) (i : N) (sgs : list segment) (ds : list bytes) : Prop :=
  match sgs, ds with
  | [], [] => True
  | sg :: r, d :: rd => done_ok s i sg d /\ dones s (i + 1) r rd
  | _, _ => False
  end.

Definition silos (sgs : list segment) : list N := map (fun sg => w_no (sg_silo sg)) sgs.

Lemma dones_rely own s s' ds : forall i sgs, (forall n, In n (silos sgs) -> In n own) -> dones s i sgs ds -> rely own s s' -> dones s' i sgs ds.
Proof.
  induction ds as [|d ds IH]; intros i [|sg r] H Hd R; cbn [dones] in *; auto.
  destruct Hd as [(A1 & A2 & A3 & A4 & A5 & A6 & A7 & hb & A8 & A9) Hd]. split.
  - repeat (split; [assumption|]). exists hb. split; auto. eapply mine_rely; [|exact A8|exact R]. apply H. left. auto.
  - eapply IH; eauto. intros n Hn. apply H. right. auto.
Qed.

Lemma dones_app s ds1 ds2 : forall i a b, List.length a = List.length ds1 ->
  (dones s i (a ++ b) (ds1 ++ ds2) <-> dones s i a ds1 /\ dones s (i + N.of_nat (List.length a)) b ds2).
Proof.
  induction ds1 as [|d ds IH]; intros i [|sg a] b El; try discriminate; cbn [app dones List.length] in *.
  - replace (i + N.of_nat 0) with i by lia. tauto.
  - rewrite (IH (i + 1) a b) by lia. replace (i + N.of_nat (S (List.length a))) with (i + 1 + N.of_nat (List.length a)) by lia. tauto.
Qed.

Lemma dones_len s ds : forall i sgs, dones s i sgs ds -> List.length sgs = List.length ds.
Proof. induction ds; intros i [|sg r] H; cbn [dones List.length] in *; try tauto. f_equal. eapply IHds. apply H. Qed.

Lemma dones_hold s ds n : forall i sgs, dones s i sgs ds -> In n (silos sgs) -> f_hold s n <> None.
Proof.
  induction ds as [|d ds IH]; intros i [|sg r] H Hn; cbn [dones] in *; try contradiction.
  destruct H as [(_ & _ & _ & _ & _ & _ & _ & hb & (A & _) & _) H]. destruct Hn as [<-|Hn]; [congruence|]. eapply IH; eauto.
Qed.

(* the segment being written *)
Definition cur_ok (s : fs) (sj : segjob L) (sg : segment) : Prop :=
  seghdr (sj_nseg L sj) (sg_hdr sg) 2560 /\ sg_no sg = sj_nseg L sj /\ sg_size sg = len (sj_seg L sj) /\
  w_idx (sg_silo sg) = type_flag (stype (sj_nseg L sj)) /\
  (sj_flag L sj = ZNone \/ sj_flag L sj = ZPartial) /\
  exists hb out taken, mine C L s (w_no (sg_silo sg)) hb /\ opened C L (sg_silo sg) hb out /\ len hb + 24 <= c_max C /\
    zran L (sj_z L sj) taken out /\ sj_seg L sj = taken ++ sj_in L sj /\ (sj_seg L sj = [] -> len hb + 76 <= c_max C).

Lemma set_ref_ret h d (n : string) : hgood h -> goodname n = true -> goodval d -> len d = 64 ->
  exists h', Header_Set_Ref prefix (c_idsize C) h (str n) d = Ok h' /\ hgood h' /\ h_id h' = h_id h /\
    (forall m, hget h' m = if samename m n then Some (str "<" ++ prefix ++ firstn (N.to_nat (c_idsize C)) d ++ str ">") else hget h m) /\
    hlen prefix h' <= hlen prefix h + len (str n) + len prefix + c_idsize C + 6.
Proof.
  intros G N V Ld. unfold Header_Set_Ref, guard. pose proof (co_idsize C CO). replace (c_idsize C <=? len d) with true by lia. cbn [bind].
  destruct (co_prefix C CO) as ((P1 & P2 & _) & P3 & P4).
  destruct (set_good prefix h n ([60] ++ prefix ++ firstn (N.to_nat (c_idsize C)) d ++ [62])) as (h' & E & G' & I & GG & LL); auto.
  - repeat apply goodval_app; try (apply goodb_val; reflexivity); [split; auto|apply goodval_firstn; auto].
  - exists h'. split; [exact E|]. repeat (split; [auto|]). unfold Header_Len in LL. rewrite !len_app in LL.
    rewrite (ident_len C d CO Ld) in LL. change (len [60]) with 1 in LL. change (len [62]) with 1 in LL. lia.
Qed.

Lemma clone_eq h : Header_Clone h = h.
Proof.
  destruct h as [i l]. unfold Header_Clone. cbn [h_id h_fields]. f_equal. induction l as [|[a b] l IH]; cbn [map hf_name hf_val]; congruence.
Qed.

Ltac hstep := match goal with
  | |- wp _ _ _ _ _ (bindp (hset ?h ?n ?v) _) =>
    let h' := fresh "h" in let E := fresh "E" in let G := fresh "G" in let I := fresh "I" in
    let GG := fresh "GG" in let LL := fresh "LL" in
    destruct (hset_ret prefix h n v) as (h' & E & G & I & GG & LL);
    [auto | reflexivity | auto | rewrite E; cbn [bindp]; clear E; unfold Header_Len in LL; rewrite ?len_str_app, ?len_str in LL;
      cbn [String.length] in LL]
  end.

Lemma newseg_ok s aa sj : base_ok -> sj_hdr L sj = hdr -> cache_ok C s aa -> sj_size L sj < 2 ^ 62 ->
  wpD (fun x own s1 => cache_ok C s1 (fst x) /\ exists sg, own = [w_no (sg_silo sg)] /\ cur_ok s1 (snd x) sg /\
         sj_nseg L sj + 1 < 2 ^ 31 /\
         snd x = mkJ L (sj_hdr L sj) (sj_ident L sj) (sj_nseg L sj + 1) (sj_done L sj) (Some sg)
                     (sj_pay L sj) [] (sj_size L sj) (z_init L) [] ZNone)
      [] s (segjob_newseg C L aa sj).
Proof.
  intros (B1 & B2 & B3 & B4 & B5 & B6 & B7 & B8 & B9 & _) Eh CK SZ. unfold segjob_newseg. pose proof (co_max C CO) as MX.
  destruct (2 ^ 31 - 1 <=? sj_nseg L sj) eqn:NS; [cbn [wp]; auto|]. cbv zeta. rewrite Eh, clone_eq.
  set (i := sj_nseg L sj + 1). pose proof (goodval_sha L ZO []) as GS. pose proof (len_sha L ZO []) as LS.
  assert (GC : goodval (str "00" ++ dec (c_max C))) by (apply goodval_app; [apply goodb_val; reflexivity|apply goodval_dec]).
  pose proof (dec_len (c_max C) ltac:(lia)) as LD.
  hstep. hstep.
  assert (KEY : forall h' pd, hgood h' -> h_id h' = h_id hdr -> hlen prefix h' <= 2560 -> pd <= 300 ->
     hget h' "WARC-Type" = Some (stype i) -> hget h' "WARC-Segment-Number" = (if i =? 1 then None else Some (dec i)) ->
     hget h' "WARC-Payload-Digest" = None -> hget h' "WARC-Segment-Total-Length" = None ->
     hget h' "WARC-Refers-To" = hget hdr "WARC-Refers-To" -> hget h' "Content-Type" = hget hdr "Content-Type" ->
     wpD (fun x own s1 => cache_ok C s1 (fst x) /\ exists sg, own = [w_no (sg_silo sg)] /\ cur_ok s1 (snd x) sg /\
         i < 2 ^ 31 /\
         snd x = mkJ L hdr (sj_ident L sj) i (sj_done L sj) (Some sg)
                     (sj_pay L sj) [] (sj_size L sj) (z_init L) [] ZNone)
      [] s (let! (aa, sl) := Wsilo_Next C L aa in
            let! sl := Wsilo_Header C L sl h' pd in
            Ret (aa, mkJ L hdr (sj_ident L sj) i (sj_done L sj) (Some (mkS i h' sl 0))
               (sj_pay L sj) [] (sj_size L sj) (z_init L) [] ZNone))).
  { intros h' pd K1 K2 K3 K4 K5 K6 K7 K8 K9 K10.
    eapply wp_seq; [apply Wsilo_Next_ok; auto|]. cbn beta. intros (aa', sl) own s1 (CK1 & -> & F). cbn [fst snd] in *.
    eapply wp_seq; [apply wp_grow; apply (Wsilo_Header_ok C L CO ZO D DA s1 sl h' pd (stype i)); auto|].
    - rewrite K2. auto.
    - lia.
    - unfold stype. destruct (i =? 1); [|discriminate]. destruct B6 as [-> | ->]; discriminate.
    - cbn beta. intros sl' own s2 ((-> & N1 & N2 & hb & M2 & O2 & L2) & Rl). cbn [wp fst snd].
      split; [eapply cache_rely; eauto|]. exists (mkS i h' sl' 0). cbn [sg_silo sg_hdr sg_no sg_size].
      split; [congruence|]. split; [|split; [unfold i; lia|congruence]].
      unfold cur_ok. cbn [sj_nseg sj_seg sj_flag sj_z sj_in sg_silo sg_hdr sg_no sg_size]. split; [|split; [auto|split; [auto|split; [auto|split; [auto|]]]]].
      + unfold seghdr. rewrite K2. auto 12.
      + exists hb, [], []. split; [congruence|]. split; [auto|]. split; [lia|]. split; [constructor|auto]. }
  destruct (i =? 1) eqn:X.
  - cbn [bindp]. apply KEY; auto; rewrite ?GG0, ?GG; names; rewrite ?GG; names; auto.
    + congruence.
    + lia.
    + unfold Header_Len. rewrite !len_str_app, !len_str, LS. cbn [String.length]. lia.
    + rewrite B5. unfold stype. rewrite X. auto.
  - apply wp_bind. pose proof (goodval_dec i) as GI. hstep. assert (GT : goodval (str "continuation")) by (apply goodb_val; reflexivity). hstep.
    destruct (set_ref_ret h2 (z_sha L []) "WARC-Segment-Origin-ID") as (h3 & E3 & G3 & I3 & GG3 & LL3); auto.
    { apply goodval_hex. apply sha_hex. auto. }
    rewrite E3. cbn [lift bindp wp]. pose proof (dec_len i ltac:(unfold i; lia)) as LI. rewrite len_str in LL3. cbn [String.length] in LL3.
    destruct (co_prefix C CO) as (_ & _ & LP). pose proof (co_idsize C CO) as LID.
    apply KEY; auto; rewrite ?GG3; names; rewrite ?GG2; names; rewrite ?GG1; names; rewrite ?GG0; names; rewrite ?GG; names; auto.
    + congruence.
    + lia.
    + pose proof (dec_len (sj_size L sj + c_max C) ltac:(lia)). unfold Header_Len. rewrite !len_str. cbn [String.length]. lia.
    + unfold stype. rewrite X. auto.
Qed.
(** * Compressing *)

Lemma deflate_ok s sj sg hb out ob fl : mine C L s (w_no (sg_silo sg)) hb -> opened C L (sg_silo sg) hb out ->
  wpD (fun x own s1 => own = [w_no (sg_silo sg)] /\ exists z c o rc sl',
         z_deflate L (sj_z L sj) (sj_in L sj) ob fl = (z, c, o, rc) /\ (rc = ZOk \/ rc = ZEnd /\ fl = ZFinish) /\
         mine C L s1 (w_no (sg_silo sg)) (hb ++ o) /\ opened C L sl' (hb ++ o) (out ++ o) /\
         w_no sl' = w_no (sg_silo sg) /\ w_idx sl' = w_idx (sg_silo sg) /\
         snd x = mkS (sg_no sg) (sg_hdr sg) sl' (sg_size sg) /\
         fst x = mkJ L (sj_hdr L sj) (sj_ident L sj) (sj_nseg L sj) (sj_done L sj) (Some (snd x))
           (sj_pay L sj) (sj_seg L sj) (sj_size L sj) z (skipn (N.to_nat c) (sj_in L sj)) fl)
      [w_no (sg_silo sg)] s (segjob_deflate L sj sg ob fl).
Proof.
  intros M O. unfold segjob_deflate. destruct (z_deflate L (sj_z L sj) (sj_in L sj) ob fl) as [[[z c] o] rc] eqn:E.
  apply wp_assert; auto. intros A1.
  assert (Hrc : rc = ZOk \/ rc = ZEnd /\ fl = ZFinish) by (destruct rc, fl; auto; discriminate).
  apply wp_seq with (R := fun sl' own s1 => own = [w_no (sg_silo sg)] /\ mine C L s1 (w_no (sg_silo sg)) (hb ++ o) /\
     opened C L sl' (hb ++ o) (out ++ o) /\ w_no sl' = w_no (sg_silo sg) /\ w_idx sl' = w_idx (sg_silo sg)).
  - destruct (0 <? len o) eqn:X.
    + destruct O as (wr & hp & O1 & O2 & O3 & O4 & O5 & O6 & O7 & O8).
      eapply wp_conseq; [|apply (Wsilo_Store_wp C L D DA (w_no (sg_silo sg)) s (sg_silo sg) hb o); auto]. cbn beta.
      intros sl' own s1 (-> & _ & M1 & ->). cbn [w_no w_idx]. split; [auto|split; [auto|split; [|auto]]].
      exists wr, hp. cbn [w_no w_idx w_len w_start w_hlen w_buf w_wid]. rewrite O1 at 1. rewrite <- !app_assoc. auto 9.
    + assert (o = []) by (destruct o; auto; rewrite len_cons in X; lia). subst o. rewrite !app_nil_r. cbn [wp]. auto.
  - cbn beta. intros sl' own s1 (-> & M1 & O1 & N1 & N2). cbn [wp fst snd]. split; [auto|].
    exists z, c, o, rc, sl'. auto 10.
Qed.

Lemma outbuf_ok s sg hb out : mine C L s (w_no (sg_silo sg)) hb -> opened C L (sg_silo sg) hb out -> len hb + 24 <= c_max C ->
  forall {B} (Q : B -> list N -> fs -> Prop) own f,
  (forall ob, (ob = c_max C - len hb - 24 /\ ob <= BUFLEN - 24 \/ ob = BUFLEN - 24 /\ ob + 24 + len hb <= c_max C) ->
     wpD Q own s (f ob)) ->
  wpD Q own s (bindp (segjob_setup_outbuf C sg) f).
Proof.
  intros M (wr & hp & O1 & O2 & O3 & O4 & O5 & O6 & O7 & O8) Lh B Q own f H. unfold segjob_setup_outbuf, Wsilo_GetSpace.
  rewrite O7, O6. unfold BUFLEN in *. destruct (_ <? _)%Z eqn:X.
  - change (Z.of_N 1048576 =? 0)%Z with false. change (Z.of_N 1048576 <? 24)%Z with false. cbn [negb assert bindp].
    apply H. right. lia.
  - apply wp_bind. apply wp_assert; auto. intros A1. replace (_ <? 24)%Z with false by lia. cbn [wp]. apply H. left. lia.
Qed.

Lemma nil_skip {A} n : skipn n (@nil A) = [].
Proof. destruct n; auto. Qed.

(* the end of a segment *)
Lemma finishseg_ok s sj sg hb m data : base_ok -> sj_hdr L sj = hdr -> sj_ident L sj = ident ->
  seghdr (sj_nseg L sj) (sg_hdr sg) 2560 -> sg_no sg = sj_nseg L sj -> sg_size sg = len data -> sj_seg L sj = data ->
  w_idx (sg_silo sg) = type_flag (stype (sj_nseg L sj)) -> len data < 2 ^ 62 ->
  mine C L s (w_no (sg_silo sg)) hb -> opened C L (sg_silo sg) hb (m ++ crnlcrnl) -> unsized m data -> len hb <= c_max C ->
  wpD (fun sj' own s1 => own = [w_no (sg_silo sg)] /\ exists sg', done_ok s1 (sj_nseg L sj) sg' data /\
         w_no (sg_silo sg') = w_no (sg_silo sg) /\
         sj' = mkJ L (sj_hdr L sj) (sj_ident L sj) (sj_nseg L sj) (sj_done L sj ++ [sg']) None
           (sj_pay L sj) (sj_seg L sj) (sj_size L sj) (sj_z L sj) (sj_in L sj) (sj_flag L sj))
      [w_no (sg_silo sg)] s (segjob_finishseg C L sj sg).
Proof.
  intros (B1 & B2 & B3 & B4 & B5 & B6 & _) Eh Ei (H1 & H2 & H3 & H4 & H5 & H6 & H7 & H8 & H9 & H10) Eno Esz Eseg Eidx Ld M O U Lh.
  unfold segjob_finishseg. rewrite Eseg. pose proof (goodval_sha L ZO data) as GS. pose proof (len_sha L ZO data) as LS.
  hstep. rewrite Esz. pose proof (goodval_dec (len data)) as GD. pose proof (dec_len (len data) ltac:(lia)) as LD. hstep.
  rewrite Eno, Ei. set (inp := if sj_nseg L sj =? 1 then ident else None).
  pose proof (ident_set_res L C h0 (z_sha L data) inp) as NU.
  destruct (Ident_Set (z_sha L) prefix (c_idsize C) h0 (z_sha L data) inp) as [hd| | |] eqn:EI; cbn [lift bindp wp]; auto; try contradiction.
  assert (LI : len (h_id hd) = c_idsize C).
  { clear - EI ZO CO. unfold Ident_Set in EI. assert (X : forall id, Header_Set_Id (c_idsize C) h0 id = Ok hd -> len (h_id hd) = c_idsize C).
    { intros id. unfold Header_Set_Id, guard. destruct (forallb is_graph id); [|discriminate]. cbn [bind]. destruct (c_idsize C <=? len id) eqn:Y; [|discriminate].
      cbn [bind]. intros Z. injection Z as <-. cbn [h_id]. unfold len in *. rewrite firstn_length. lia. }
    destruct inp as [x|].
    - destruct (IDX_Valid_Id _ _ _); try discriminate. eauto.
    - destruct (Ident_Create _ _ _ _); try discriminate. cbn [bind] in EI. eauto. }
  assert (IB : is_bytes (h_id hd)).
  { clear - EI ZO CO. unfold Ident_Set in EI. assert (X : forall id, Header_Set_Id (c_idsize C) h0 id = Ok hd -> is_bytes (h_id hd)).
    { intros id. unfold Header_Set_Id, guard. destruct (forallb is_graph id) eqn:G; [|discriminate]. cbn [bind]. destruct (c_idsize C <=? len id) eqn:Y; [|discriminate].
      cbn [bind]. intros Z. injection Z as <-. cbn [h_id]. apply forall_firstn. apply Forall_forall. rewrite forallb_forall in G.
      intros x Hx. apply G in Hx. unfold is_graph in Hx. lia. }
    destruct inp as [x|].
    - destruct (IDX_Valid_Id _ _ _); try discriminate. eauto.
    - destruct (Ident_Create _ _ _ _); try discriminate. cbn [bind] in EI. eauto. }
  apply ident_set_cases in EI; auto. destruct EI as (EF & EX).
  assert (HH : forall m, hget hd m = hget h0 m) by (intros q; unfold hget, Header_Get; rewrite EF; auto).
  eapply wp_seq; [apply (Wsilo_Finish_ok C L CO D DA s (sg_silo sg) hb m data); auto|]. cbn beta.
  intros sl' own s1 (-> & N1 & N2 & hb' & M1 & S1). cbn [wp]. split; [auto|].
  exists (mkS (sj_nseg L sj) hd sl' (len data)). cbn [sg_silo]. split; [|split; [auto|reflexivity]].
  unfold done_ok. cbn [sg_silo sg_hdr sg_no sg_size]. split; [|split; [auto|split; [auto|split; [congruence|]]]].
  - unfold seghdr. split; [unfold hgood; rewrite EF; apply G0|]. split.
    + rewrite hlen_eq, EF, LI. rewrite hlen_eq in LL0. rewrite I0, I, H3 in LL0. lia.
    + split; [auto|]. split; [auto|]. rewrite !HH. rewrite !GG0. names. rewrite !GG. names. auto 10.
  - rewrite !HH. rewrite !GG0. names. rewrite !GG. names. split; [auto|]. split; [auto|]. split.
    + unfold segid. fold inp. destruct inp as [x|]; auto. destruct EX as (x & EX & X1 & X2). exists x. split; [auto|].
      assert (Ht : hget h0 "WARC-Type" = Some (stype (sj_nseg L sj))) by (rewrite GG0; names; rewrite GG; names; auto).
      assert (Hr : hget h0 "WARC-Refers-To" = hget hdr "WARC-Refers-To") by (rewrite GG0; names; rewrite GG; names; auto).
      rewrite Ht in X1, X2. split.
      * intros Y. rewrite <- Hr. apply X1. congruence.
      * intros Y. apply X2. congruence.
    + exists hb'. rewrite N1. auto.
Qed.
(** * The loop *)

Definition jinv (s : fs) (own : list N) (sj : segjob L) (ds : list bytes) : Prop :=
  sj_hdr L sj = hdr /\ sj_ident L sj = ident /\ sj_size L sj = len (sj_pay L sj) /\ is_bytes (sj_pay L sj) /\
  dones s 1 (sj_done L sj) ds /\ NoDup (silos (sj_done L sj)) /\ (forall n, In n own -> f_hold s n <> None) /\
  match sj_cur L sj with
  | None => sj_pay L sj = List.concat ds /\ same (silos (sj_done L sj)) own /\ sj_in L sj = [] /\
            sj_nseg L sj = N.of_nat (List.length (sj_done L sj))
  | Some sg => cur_ok s sj sg /\ sj_pay L sj = List.concat ds ++ sj_seg L sj /\
               same ([w_no (sg_silo sg)] ++ silos (sj_done L sj)) own /\ ~ In (w_no (sg_silo sg)) (silos (sj_done L sj)) /\
               sj_nseg L sj = N.of_nat (S (List.length (sj_done L sj)))
  end.

(* no segment is empty *)
Definition full (sj : segjob L) (ds : list bytes) : Prop :=
  Forall (fun d => d <> []) ds /\ (sj_cur L sj <> None -> sj_seg L sj <> []).

Lemma feed_loop_ok : base_ok -> forall fuel aa sj ip own s ds, jinv s own sj ds -> cache_ok C s aa ->
  is_bytes ip -> len (sj_pay L sj) + len ip < 2 ^ 62 -> full sj ds ->
  wpD (fun x own' s1 => cache_ok C s1 (fst x) /\ (exists ds', jinv s1 own' (snd x) ds' /\ (ip <> [] \/ sj_cur L sj <> None -> full (snd x) ds')) /\
         sj_pay L (snd x) = sj_pay L sj ++ ip /\ sj_in L (snd x) = [] /\
         (ip <> [] -> sj_cur L (snd x) <> None) /\ (ip = [] -> sj_in L sj = [] /\ sj_cur L (snd x) = None))
      own s (feed_loop C L fuel aa sj ip).
Proof.
  intros BO. induction fuel as [|fu IH]; intros aa sj ip own s ds J CK IP SZ (FD & FS); cbn [feed_loop]; [cbn [wp]; auto|].
  apply wp_seq with (R := fun x own' s1 => cache_ok C s1 (fst x) /\ jinv s1 own' (snd x) ds /\ sj_pay L (snd x) = sj_pay L sj /\
    sj_in L (snd x) = sj_in L sj /\ sj_cur L (snd x) <> None /\ (sj_cur L sj <> None -> snd x = sj)).
  { pose proof J as (J1 & J2 & J3 & J4 & J5 & J6 & J7 & J8). destruct (sj_cur L sj) as [sg|] eqn:EC.
    - cbn [wp fst snd]. split; [auto|split; [auto|split; [auto|split; [auto|split; [congruence|auto]]]]].
    - destruct J8 as (P1 & P2 & P3 & P4).
      eapply wp_conseq with (Q := fun x own' s1 => exists o', same o' own' /\ (exists o1, o' = o1 ++ silos (sj_done L sj) /\
          (cache_ok C s1 (fst x) /\ exists sg, o1 = [w_no (sg_silo sg)] /\ cur_ok s1 (snd x) sg /\
          sj_nseg L sj + 1 < 2 ^ 31 /\
          snd x = mkJ L (sj_hdr L sj) (sj_ident L sj) (sj_nseg L sj + 1) (sj_done L sj) (Some sg)
                     (sj_pay L sj) [] (sj_size L sj) (z_init L) [] ZNone) /\ rely (silos (sj_done L sj)) s s1 /\
          (forall n, In n (silos (sj_done L sj)) -> ~ In n o1))).
      + cbn beta. intros x own' s1 (o' & S' & o1 & -> & (CK1 & sg & -> & CU & Hn & EX) & R & X). split; [auto|]. rewrite EX.
        cbn [sj_pay sj_in sj_cur]. split; [|split; [auto|split; [auto|split; [discriminate|congruence]]]].
        rewrite EX in CU. unfold jinv. cbn [sj_hdr sj_ident sj_size sj_pay sj_done sj_cur sj_seg sj_nseg]. repeat (split; [solve [auto]|]).
        split; [eapply dones_rely; [|exact J5|exact R]; auto|]. split; [auto|]. split.
        { intros n Hn'. apply S' in Hn'. apply in_app_or in Hn'. destruct Hn' as [[<-|[]]|Hn'].
          - destruct CU as (_ & _ & _ & _ & _ & hb & out & tk & (M & _) & _). congruence.
          - destruct R as (R & _). destruct (R n Hn') as (_ & -> & _). apply J7. apply P2. auto. }
        split; [auto|]. split; [rewrite app_nil_r; auto|]. split; [auto|]. split; [|lia].
        intros Y. apply X in Y. apply Y. left. auto.
      + eapply wp_same; [exact P2|]. apply (wp_frame _ _ _ _ [] (silos (sj_done L sj))).
        * intros n Hn. split; [|auto]. apply J7. apply P2. auto.
        * apply newseg_ok; auto. lia. }
  cbn beta. intros (aa1, sj1) own1 s1 (CK1 & J1 & EP & EI & CN & CS). cbn [fst snd] in *.
  destruct (sj_cur L sj1) as [sg|] eqn:EC; [|congruence]. clear CN.
  pose proof J1 as (A1 & A2 & A3 & A4 & A5 & A6 & A7 & A8). rewrite EC in A8. destruct A8 as (CU & PP & SO & NI & NN).
  pose proof CU as (U1 & U2 & U3 & U4 & U5 & hb & out & tk & M & O & Lh & ZR & SEG & ROOM).
  set (n := w_no (sg_silo sg)) in *. set (o2 := silos (sj_done L sj1)) in *.
  assert (HO : forall s', rely o2 s1 s' -> forall m, In m o2 -> f_hold s' m <> None /\ ~ In m [n]).
  { intros s' (R & _) m Hm. split; [|intros [<-|[]]; auto]. destruct (R m Hm) as (_ & -> & _). apply A7. apply SO. apply in_or_app. auto. }
  clear J CK.
  eapply (outbuf_ok s1 sg hb out); auto. intros ob Hob.
  destruct ((ob <? 52) || (len ip =? 0)) eqn:BR.
  - (* the end of a segment *)
    apply wp_assert; auto. intros IN0.
    assert (In0 : sj_in L sj1 = []) by (destruct (sj_in L sj1); auto; rewrite len_cons in IN0; lia).
    rewrite In0, app_nil_r in SEG.
    assert (TN : ip <> [] \/ sj_cur L sj <> None -> tk <> []).
    { intros X Y. rewrite Y in SEG. specialize (ROOM SEG). apply orb_true_iff in BR. unfold BUFLEN in Hob.
      destruct X as [X|X]; [|rewrite (CS X) in SEG; apply (FS X SEG)].
      destruct BR as [BR|BR]; [lia|]. destruct ip; [congruence|rewrite len_cons in BR; lia]. }
    eapply (wp_part C L D); [apply (deflate_ok s1 sj1 sg hb out ob ZSync M O)|exact SO|apply HO; apply rely_refl|].
    cbn beta. intros (sj2, sg2) o1' s2 (-> & z & c & o & rc & sl2 & EZ & RC & M2 & O2 & N2 & I2 & E2 & E1) R2 _ own2 S2.
    cbn [fst snd] in *. fold n in M2, N2. rewrite E2 in E1. subst sg2 sj2.
    assert (rc = ZOk) by (destruct RC as [|[_ Y]]; [auto|discriminate]). subst rc. rewrite In0, nil_skip in *.
    destruct (zo_bounds L ZO _ _ _ _ _ _ _ _ EZ) as (_ & Bo).
    assert (L2 : len (hb ++ o) + 24 <= c_max C) by (rewrite len_app; lia).
    set (sg2 := mkS (sg_no sg) (sg_hdr sg) sl2 (sg_size sg)) in *. fold n in O2.
    eapply (outbuf_ok s2 sg2 (hb ++ o) (out ++ o)); [cbn [sg2 sg_silo]; rewrite N2; auto|exact O2|auto|]. intros ob2 Hob2.
    match goal with |- context [segjob_deflate L ?x sg2 ob2 ZFinish] => set (sj2 := x) end.
    eapply (wp_part C L D); [apply (deflate_ok s2 sj2 sg2 (hb ++ o) (out ++ o) ob2 ZFinish)| | |].
    { cbn [sg2 sg_silo]. rewrite N2. auto. }
    { auto. }
    { cbn [sg2 sg_silo]. rewrite N2. exact S2. }
    { cbn [sg2 sg_silo]. rewrite N2. apply HO; auto. }
    cbn beta. intros (sj3, sg3) o1' s3 (-> & z3 & c3 & o3 & rc3 & sl3 & EZ3 & RC3 & M3 & O3 & N3 & I3 & E3 & E1) R3 _ own3 S3.
    cbn [fst snd sg2 sg_silo] in *. rewrite N2 in *. rewrite E3 in E1. subst sg3 sj3. cbn [sj2 sj_z sj_in] in EZ3.
    destruct (zo_bounds L ZO _ _ _ _ _ _ _ _ EZ3) as (_ & Bo3).
    apply wp_assert; auto. intros SP.
    assert (Lo : len o < ob).
    { destruct (N.eq_dec (len o) ob) as [Y|Y]; [|lia]. exfalso. unfold BUFLEN in *. destruct Hob as [[Hob _]|[Hob _]].
      - rewrite len_app in Hob2. destruct Hob2 as [[Hob2 _]|[Hob2 Hob2']]; [|lia].
        replace ob2 with 0 in EZ3 by lia. apply (zo_noroom L ZO) in EZ3. subst rc3. destruct RC3 as [|[Y' _]]; discriminate.
      - apply (zo_pend_sync L ZO _ tk out) in EZ; auto; [lia|]. rewrite Hob. vm_compute. discriminate. }
    assert (O3' := O3). destruct O3' as (wr & hp & Q1 & Q2 & Q3 & Q4 & Q5 & Q6 & Q7 & Q8). cbn [sg_silo] in SP.
    destruct (space_le C sl3 25) as (Sp & _); [lia|]. rewrite Q6 in Sp.
    assert (rc3 = ZEnd).
    { destruct RC3 as [->|[-> _]]; [|auto]. exfalso. assert (Y := zo_finish L ZO _ _ _ _ _ EZ3). unfold BUFLEN in *.
      destruct Hob2 as [[Hob2 _]|[Hob2 Hob2']].
      - rewrite !len_app in *. lia.
      - apply (zo_pend_fin L ZO _ tk out ob _ _ _ _ _ _ _ _ ZR EZ Lo) in EZ3; [lia|]. rewrite Hob2. vm_compute. discriminate. }
    subst rc3.
    assert (TB : is_bytes tk).
    { rewrite PP, SEG in A4. apply Forall_app in A4. tauto. }
    assert (UN : unsized (out ++ o ++ o3) tk) by (eapply (zo_stream L ZO); eauto).
    match goal with |- context [Wsilo_Store (sg_silo ?x) crnlcrnl] => set (sg3 := x) end.
    eapply (wp_part C L D); [apply (Wsilo_Store_wp C L D DA n s3 sl3 ((hb ++ o) ++ o3) crnlcrnl); [exact N3|exact M3|exact Q6]|exact S3| |].
    { apply HO. eapply rely_trans; [exact R2|exact R3]. }
    cbn beta. intros sl4 o1' s4 (-> & _ & M4 & E4) R4 _ own4 S4.
    match goal with |- context [segjob_finishseg C L ?x ?y] => set (sj3 := x); set (sg4 := y) end.
    assert (N4 : w_no sl4 = n) by (rewrite E4; auto).
    assert (O4 : opened C L sl4 (((hb ++ o) ++ o3) ++ crnlcrnl) ((out ++ o ++ o3) ++ crnlcrnl)).
    { exists wr, hp. rewrite E4. cbn [w_no w_idx w_len w_start w_hlen w_buf w_wid]. rewrite N3 in Q2, Q8.
      split; [rewrite Q1 at 1; rewrite <- !app_assoc; auto|auto 10]. }
    eapply (wp_part C L D); [apply (finishseg_ok s4 sj3 sg4 (((hb ++ o) ++ o3) ++ crnlcrnl) (out ++ o ++ o3) tk)| | |];
      cbn [sj3 sg4 sg3 sg2 sj_hdr sj_ident sj_nseg sj_seg sg_no sg_hdr sg_size sg_silo]; auto; rewrite ?N4; auto.
    { rewrite U3, SEG. auto. }
    { rewrite E4. cbn [w_idx]. cbn [sj2 sj_nseg]. congruence. }
    { rewrite PP, SEG in EP. rewrite <- EP, len_app in SZ. lia. }
    { rewrite len_app. change (len crnlcrnl) with 24. lia. }
    { exact S4. }
    { apply HO. eapply rely_trans; [exact R2|]. eapply rely_trans; [exact R3|exact R4]. }
    cbn beta. intros sj5 o1' s5 (-> & sg5 & DO & N5 & E5) R5 _ own5 S5.
    cbn [sj3 sj2 sj_hdr sj_ident sj_nseg sj_done sj_pay sj_seg sj_size sj_z sj_in sj_flag] in E5. rewrite nil_skip in E5. cbn [sj2 sj_nseg] in DO.
    assert (R15 : rely o2 s1 s5) by (repeat (eapply rely_trans; [eassumption|]); apply rely_refl).
    assert (J5' : jinv s5 own5 sj5 (ds ++ [tk])).
    { rewrite E5. unfold jinv. cbn [sj_hdr sj_ident sj_nseg sj_done sj_cur sj_pay sj_seg sj_size sj_z sj_in sj_flag].
      assert (SS : silos (sj_done L sj1 ++ [sg5]) = o2 ++ [n]) by (unfold silos, o2; rewrite map_app; cbn [map]; rewrite N5; reflexivity).
      split; [auto|]. split; [auto|]. split; [auto|]. split; [auto|]. split.
      { apply dones_app; [eapply dones_len; exact A5|]. split; [eapply dones_rely; [|exact A5|exact R15]; auto|]. cbn [dones]. split; [|auto].
        replace (1 + N.of_nat (List.length (sj_done L sj1))) with (sj_nseg L sj1) by lia. exact DO. }
      split. { rewrite SS. eapply Permutation_NoDup; [apply Permutation_cons_append|]. constructor; auto. }
      split. { intros m Hm. apply S5 in Hm. apply in_app_or in Hm. destruct Hm as [[<-|[]]|Hm].
        - destruct DO as (_ & _ & _ & _ & _ & _ & _ & hb5 & (M5 & _) & _). rewrite N5 in M5. congruence.
        - eapply HO; eauto. }
      split. { rewrite List.concat_app. cbn [List.concat]. rewrite app_nil_r. congruence. }
      split. { rewrite SS. intros m. specialize (S5 m). rewrite in_app_iff in S5 |- *. clear - S5. tauto. }
      split; [auto|]. rewrite app_length. cbn [List.length]. lia. }
    assert (CK5 : cache_ok C s5 aa1) by (eapply cache_rely; eauto).
    assert (P5 : sj_pay L sj5 = sj_pay L sj) by (rewrite E5; auto).
    assert (I5 : sj_in L sj5 = []) by (rewrite E5; auto).
    rewrite I5. destruct ip as [|x ip].
    + cbn [wp fst snd]. split; [auto|]. split.
      { exists (ds ++ [tk]). split; [auto|]. intros X. split; [apply Forall_app; split; auto|]. rewrite E5. cbn [sj_cur]. congruence. }
      rewrite app_nil_r. split; [auto|]. split; [auto|]. split; [tauto|].
      intros _. split; [congruence|]. rewrite E5. auto.
    + eapply wp_conseq; [|eapply (IH aa1 sj5 (x :: ip) own5 s5); eauto; [congruence|]]; cbn beta.
      2: { split; [apply Forall_app; split; auto; constructor; [apply TN; left; discriminate|constructor]|]. rewrite E5. cbn [sj_cur]. congruence. }
      intros y o' s' (X1 & (ds' & X2 & X2') & X3 & X4 & X5 & X6). split; [auto|]. split; [exists ds'; split; [auto|intros _; apply X2'; left; discriminate]|]. split; [congruence|]. split; [auto|]. split; [auto|discriminate].
  - apply orb_false_iff in BR. destruct BR as [BR1 BR2].
    assert (Hip : ip <> []) by (intros ->; discriminate).
    apply wp_seq with (R := fun x own' s' => own' = own1 /\ s' = s1 /\ let '(sj2, sg2, ip2) := x in
      sj_hdr L sj2 = hdr /\ sj_ident L sj2 = ident /\ sj_nseg L sj2 = sj_nseg L sj1 /\ sj_done L sj2 = sj_done L sj1 /\
      sj_size L sj2 = len (sj_pay L sj2) /\ is_bytes (sj_pay L sj2) /\ is_bytes ip2 /\
      sj_pay L sj2 ++ ip2 = sj_pay L sj1 ++ ip /\ sj_pay L sj2 = List.concat ds ++ sj_seg L sj2 /\
      sg2 = mkS (sg_no sg) (sg_hdr sg) (sg_silo sg) (len (sj_seg L sj2)) /\ sj_seg L sj2 = tk ++ sj_in L sj2 /\
      sj_z L sj2 = sj_z L sj1 /\ sj_flag L sj2 = sj_flag L sj1 /\ sj_seg L sj2 <> []).
    { destruct (sj_in L sj1) as [|y l] eqn:EIN.
      - apply wp_assert; auto. intros Hn0. cbn [wp]. split; [auto|split; [auto|]].
        set (k := N.min (ob / 2) (len ip)) in *.
        cbn [sj_hdr sj_ident sj_nseg sj_done sj_cur sj_pay sj_seg sj_size sj_z sj_in sj_flag].
        assert (Lk : len (firstn (N.to_nat k) ip) = k) by (unfold len in *; rewrite firstn_length; lia).
        repeat (split; [assumption|]). split; [auto|]. split; [auto|]. split; [rewrite len_app, Lk; congruence|].
        split; [apply Forall_app; split; [exact A4|apply forall_firstn; exact IP]|].
        split; [rewrite <- (firstn_skipn (N.to_nat k) ip) in IP; apply Forall_app in IP; apply IP|].
        split; [rewrite <- app_assoc, firstn_skipn; auto|]. split; [rewrite PP, <- app_assoc; auto|].
        split; [rewrite len_app, Lk; congruence|]. split; [rewrite SEG, app_nil_r; auto|].
        split; [auto|]. split; [auto|]. intros Y. apply app_eq_nil in Y. destruct Y as (_ & Y). rewrite Y, len_nil in Lk. lia.
      - cbn [wp]. split; [auto|split; [auto|]]. repeat (split; [solve [auto]|]). split; [|rewrite EIN; repeat (split; [solve [auto]|]); rewrite SEG; destruct tk; discriminate].
        rewrite <- U3. destruct sg; auto. }
    cbn beta. intros ((sj2, sg2), ip2) own2 s2 (-> & -> & K1 & K2 & K3 & K4 & K5 & K6 & K7 & K8 & K9 & K10 & K11 & K12 & K13 & K14).
    set (fl := if ob <? 131072 then ZPartial else sj_flag L sj2).
    assert (HF : fl = ZNone \/ fl = ZPartial) by (unfold fl; rewrite K13; destruct (ob <? 131072); auto).
    clearbody fl.
    eapply (wp_part C L D); [apply (deflate_ok s1 sj2 sg2 hb out ob fl)| | |].
    { rewrite K10. exact M. }
    { rewrite K10. exact O. }
    { rewrite K10. exact SO. }
    { rewrite K10. apply HO; apply rely_refl. }
    cbn beta. intros (sj3, sg3) o1' s3 (-> & z & c & o & rc & sl3 & EZ & RC & M3 & O3 & N3 & I3 & E3 & E1) R3 _ own3 S3.
    cbn [fst snd] in *. rewrite K10 in N3, I3, M3, S3. cbn [sg_silo] in N3, I3, M3, S3. fold n in N3, M3, S3.
    assert (rc = ZOk) by (destruct RC as [|[_ Y]]; [auto|subst fl; destruct HF; discriminate]). subst rc.
    destruct (zo_bounds L ZO _ _ _ _ _ _ _ _ EZ) as (Bc & Bo).
    assert (J3 : jinv s3 own3 sj3 ds).
    { rewrite E1. unfold jinv. cbn [sj_hdr sj_ident sj_nseg sj_done sj_cur sj_pay sj_seg sj_size sj_z sj_in sj_flag]. rewrite K4. fold o2.
      split; [auto|]. split; [auto|]. split; [auto|]. split; [auto|]. split; [eapply dones_rely; [|exact A5|exact R3]; auto|].
      split; [auto|]. split.
      { intros m Hm. apply S3 in Hm. apply in_app_or in Hm. destruct Hm as [[<-|[]]|Hm]; [destruct M3; congruence|eapply HO; eauto]. }
      split.
      { unfold cur_ok. cbn [sj_hdr sj_ident sj_nseg sj_done sj_cur sj_pay sj_seg sj_size sj_z sj_in sj_flag]. rewrite E3, K10.
        cbn [sg_no sg_hdr sg_size sg_silo]. rewrite K3. repeat (split; [solve [auto|congruence]|]).
        exists (hb ++ o), (out ++ o), (tk ++ firstn (N.to_nat c) (sj_in L sj2)). rewrite N3. split; [auto|]. split; [auto|].
        split; [rewrite len_app; lia|]. split; [|split; [rewrite <- app_assoc, firstn_skipn; auto|intros; contradiction]].
        rewrite K12 in EZ. eapply zran_call; eauto. }
      split; [auto|]. rewrite E3. cbn [sg_silo]. rewrite N3. split; [auto|]. split; [auto|]. congruence. }
    assert (CK3 : cache_ok C s3 aa1) by (eapply cache_rely; eauto).
    assert (P3 : sj_pay L sj3 = sj_pay L sj2) by (rewrite E1; auto).
    assert (C3 : sj_cur L sj3 <> None) by (rewrite E1; cbn [sj_cur]; discriminate).
    assert (SZ3 : len (sj_pay L sj3) + len ip2 < 2 ^ 62) by (rewrite P3, <- len_app, K8, EP, len_app; auto).
    assert (F3 : full sj3 ds) by (split; [auto|]; intros _; rewrite E1; auto).
    assert (REC : ~ (sj_in L sj3 = [] /\ ip2 = []) -> wpD (fun x own' s1 => cache_ok C s1 (fst x) /\ (exists ds', jinv s1 own' (snd x) ds' /\ (ip <> [] \/ sj_cur L sj <> None -> full (snd x) ds')) /\
         sj_pay L (snd x) = sj_pay L sj ++ ip /\ sj_in L (snd x) = [] /\
         (ip <> [] -> sj_cur L (snd x) <> None) /\ (ip = [] -> sj_in L sj = [] /\ sj_cur L (snd x) = None))
         own3 s3 (feed_loop C L fu aa1 sj3 ip2)).
    { intros NE. eapply wp_conseq; [|eapply (IH aa1 sj3 ip2 own3 s3); eauto]. cbn beta.
      intros y o' s' (X1 & (ds' & X2 & X2') & X3 & X4 & X5 & X6). split; [auto|]. split; [eauto|]. split; [rewrite X3, P3, K8, EP; auto|]. split; [auto|].
      split; [|intros; contradiction]. intros _. destruct ip2; [|apply X5; discriminate]. exfalso. apply NE. split; auto. apply X6. auto. }
    destruct (sj_in L sj3) as [|q l] eqn:E9; [destruct ip2 as [|q ip2]|].
    + cbn [wp fst snd]. split; [auto|]. split; [eauto|]. split; [rewrite P3, <- (app_nil_r (sj_pay L sj2)), K8, EP; auto|].
      split; [auto|]. split; [auto|intros; contradiction].
    + apply REC. intros (_ & Y). discriminate.
    + apply REC. intros (Y & _). discriminate.
Qed.
End Base.
End Job.
