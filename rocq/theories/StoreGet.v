(* Getting what has been stored. *)
From Coq Require Import String Permutation.
From Coq Require Import ZifyBool ZifyNat ZifyN.
From Verif Require Import Base BaseLemmas ListLemmas IndexModel IndexSpec HeaderModel HeaderSpec HeaderProofs
  InflateSpec InflateProofs GzipModel GzipSpec GzipProofs ProgModel StoreModel StoreSpec StoreSysModel StoreWp StoreSys StoreHdr
  StoreWrite StoreCommit StoreJob StoreMain.
Open Scope string_scope.
Open Scope list_scope.
Open Scope N_scope.

Lemma skipn_cat {A} (a b : list A) : skipn (List.length a) (a ++ b) = b.
Proof. induction a; auto. Qed.
Lemma skipn_len (a b : bytes) : skipn (N.to_nat (len a)) (a ++ b) = b.
Proof. unfold len. rewrite Nat2N.id. apply skipn_cat. Qed.

Lemma firstn_cat {A} n (a b : list A) : List.length a = n -> firstn n (a ++ b) = a.
Proof. intros <-. induction a; [apply firstn_O|]. cbn [List.length app firstn]. f_equal. auto. Qed.

Section Get.
Variable C : conf.
Variable L : zlib.
Hypothesis CO : conf_ok C.
Notation prefix := (c_prefix C).

(** * Reading a record *)

Definition body (w : wrec) (B : bytes) : Prop :=
  aa_member B /\ gunzip B = Some (wr_data w, []) /\
  (has (wr_hdr w) "WARC-Type" (str "warcinfo") \/ synced B (wr_data w)).

Lemma cstr_clean s : ~ In 0 s -> cstr s = s.
Proof.
  induction s as [|c s IH]; intros H; auto. cbn [cstr]. replace (c =? 0) with false.
  - rewrite IH; auto. intros X. apply H. right. auto.
  - symmetry. apply N.eqb_neq. intros ->. apply H. left. auto.
Qed.

Lemma text_clean hd : clean prefix -> wf_header hd -> ~ In 0 (warc_text prefix hd).
Proof.
  intros (P & _) (HX & _ & F). apply hex_id in HX. destruct HX as (((((I1 & _) & _) & _) & _) & _). unfold warc_text.
  assert (FF : ~ In 0 (flat_map (fun f => hf_name f ++ str ": " ++ hf_val f ++ [13; 10]) (h_fields hd))).
  { induction (h_fields hd) as [|f l IH]; [intros []|]. inversion F as [|? ? (_ & (F1 & _) & (F2 & _)) F3]; subst.
    cbn [flat_map]. intros X. apply in_app_iff in X. destruct X as [X|X]; [|apply IH; auto].
    repeat (apply in_app_iff in X; destruct X as [X|X]); auto; repeat (destruct X as [X|X]; [discriminate|]); auto. }
  intros X. repeat (apply in_app_iff in X; destruct X as [X|X]); auto;
    repeat (destruct X as [X|X]; [discriminate|]); auto.
Qed.

Lemma aa_len B : aa_member B -> 24 <= len B.
Proof. intros (xfl & r & _ & _ & ->). rewrite !len_app, le_enc_len. change (len _) with 16 at 1. lia. Qed.

Lemma read_header a r z w : record C L r w -> exists H B, r = H ++ B ++ crnlcrnl /\ body w B /\
  Rsilo_ReadHeader C (a ++ r ++ z) (len a) = Ok (Some (wr_hdr w, Z.of_N (len B), len a + len H)).
Proof.
  intros (H & B & -> & _ & _ & G & WF & L1 & L2 & AA & GB & SY). exists H, B. split; [auto|]. split; [split; [auto|split; auto]|].
  destruct (co_prefix C CO) as (P & _). pose proof (aa_len B AA) as LB.
  unfold Rsilo_ReadHeader, file_read. rewrite skipn_len, <- !app_assoc.
  set (page := firstn (N.to_nat 4096) (H ++ B ++ crnlcrnl ++ z)).
  assert (PG : exists t, page = H ++ firstn 24 B ++ t).
  { exists (firstn (N.to_nat 4096 - List.length H - 24) (skipn 24 B ++ crnlcrnl ++ z)). unfold page.
    rewrite <- (firstn_skipn 24 B) at 1. rewrite <- app_assoc.
    rewrite (firstn_app _ H). replace (firstn (N.to_nat 4096) H) with H by (symmetry; apply firstn_all2; unfold len in *; lia). f_equal.
    rewrite firstn_app. rewrite (firstn_all2 (firstn 24 B)) by (rewrite firstn_length; unfold len in *; lia). f_equal. f_equal.
    rewrite firstn_length. unfold len in *. lia. }
  clearbody page. destruct PG as (t & ->).
  destruct (gunzip_split _ _ _ G) as (m & Em & Gm). rewrite app_nil_r in Em. subst m.
  assert (NE : exists c l, H ++ firstn 24 B ++ t = c :: l).
  { destruct H as [|c H]; [|eexists _, _; reflexivity]. specialize (Gm []). discriminate. }
  destruct NE as (c & l & NE). rewrite NE. rewrite <- NE. rewrite Gm.
  unfold guard. replace (len (warc_text prefix (wr_hdr w)) <=? 4096) with true by lia. cbn [bind].
  destruct AA as (xfl & r & X & LL & EB).
  assert (AB : firstn 24 B = [31; 139; 8; 4; 0; 0; 0; 0; xfl; 3; 12; 0; 65; 97; 8; 0] ++ le_enc 8 (len B)).
  { rewrite EB at 1. apply firstn_cat. rewrite app_length, le_enc_length. reflexivity. }
  rewrite AB. rewrite <- app_assoc. rewrite read_aa; [|reflexivity|intros x; apply good_aa; auto|lia]. cbn [bind].
  rewrite cstr_clean by (apply text_clean; auto; apply P). rewrite <- ser_text. destruct WF as (W1 & W2 & W3).
  apply hex_id in W1. destruct W1 as (((W1 & _) & _) & _).
  rewrite parse_serialize; auto.
  - cbn [bind]. f_equal. f_equal. f_equal. rewrite !len_app. lia.
  - eapply Forall_impl; [|exact W3]. intros f (F1 & (_ & F2) & (_ & F3)). split; [auto|split; auto].
Qed.

Lemma flags_val hd t fl : hsorted (h_fields hd) -> has hd "WARC-Type" t -> flags_for hd fl ->
  fl = match hget hd "WARC-Segment-Number" with
       | None => type_flag t
       | Some k => type_flag t + 16 + (if bytes_eqb k (str "1") then 32 else 0) +
                   (match hget hd "WARC-Segment-Total-Length" with Some _ => 64 | None => 0 end)
       end.
Proof.
  intros S H (t' & H' & F). rewrite has_get in H, H' by auto. assert (t' = t) by congruence. subst t'.
  destruct F as [(A & ->)|(k & last & A & B & ->)].
  - apply hasnt_get in A. rewrite A. auto.
  - rewrite has_get in A by auto. rewrite A. destruct last.
    + destruct B as (v & B). rewrite has_get in B by auto. rewrite B. auto.
    + apply hasnt_get in B. rewrite B. auto.
Qed.

Definition gotten (s : fs) (p : part) (k : N) (g : getjobseg) : Prop :=
  g_silo g = p_silo p /\ g_hdr g = wr_hdr (p_rec p) /\ g_flag g = e_flags (p_ent p) /\ g_cont g = e_cont (p_ent p) /\
  g_segno g = k /\
  exists a H B z b wr, f_silo s (p_silo p) = Some (b, wr) /\ b = a ++ H ++ B ++ z /\ body (p_rec p) B /\
    g_boff g = len a + len H /\ g_blen g = Z.of_N (len B).

Lemma gotten_rely own s s' p k g : rely own s s' -> gotten s p k g -> gotten s' p k g.
Proof.
  intros (_ & R & _) (H1 & H2 & H3 & H4 & H5 & a & H & B & z & b & wr & E1 & E2 & E3).
  destruct (R _ _ _ E1) as (t & w' & E & _). split; [auto|]. split; [auto|]. split; [auto|]. split; [auto|]. split; [auto|].
  exists a, H, B, (z ++ t), (b ++ t), w'. split; [auto|]. split; [|auto]. rewrite E2, <- !app_assoc. auto.
Qed.

Lemma ent_eq_dec (a b : ixent) : {a = b} + {a <> b}.
Proof. decide equality; try apply N.eq_dec; apply (list_eq_dec N.eq_dec). Qed.

(* what getjob_iter sees at an entry *)
Lemma at_entry s n o w e : in_archive C L s n o w e -> exists b a H B z wr, f_silo s (e_silo e) = Some (b, wr) /\
  b = a ++ H ++ B ++ z /\ body w B /\ hsorted (h_fields (wr_hdr w)) /\
  Rsilo_ReadHeader C b (e_off e) = Ok (Some (wr_hdr w, Z.of_N (len B), len a + len H)).
Proof.
  intros (_ & (E1 & E2 & _) & b & wr & a & r & z & F & -> & LA & R). pose proof R as (_ & _ & _ & _ & _ & _ & (_ & WS & _) & _).
  destruct (read_header a r z w R) as (H & B & -> & BB & RH). rewrite E1, E2, <- LA.
  exists (a ++ (H ++ B ++ crnlcrnl) ++ z), a, H, B, (crnlcrnl ++ z), wr. split; [auto|]. split; [rewrite <- !app_assoc; auto|]. split; [auto|]. auto.
Qed.

Section Walk.
Variable I : fs -> Prop.
Notation wpn := (wp I (fun _ => False)).

Lemma wp_read {B} (Q : B -> list N -> fs -> Prop) own s c f : roc c = true ->
  (forall s1, rely own s s1 -> I s1 -> wpn Q own s1 (f (snd (exec c s1)))) ->
  wpn Q own s (bindp (sys c) f).
Proof.
  intros Hc H. unfold sys. cbn [bindp wp]. intros s1 R HI.
  assert (E : fst (exec c s1) = s1) by (destruct c; try discriminate; auto).
  rewrite E. split; [|split; [|split]]; auto.
  - destruct c; try discriminate; exact Logic.I.
  - intros s' T. destruct T; discriminate.
  - specialize (H s1 R HI). destruct c; try discriminate; exact H.
Qed.

Variable nid id : bytes.
Hypothesis NID : lower nid = lower id.
Hypothesis LID : len id = c_idsize C.

Definition first_ok (p : part) : Prop := p_id p = id /\ flag (e_flags (p_ent p)) IDX_F_WARCINFO = false /\
  flag (e_flags (p_ent p)) IDX_F_SEGMENTED && negb (flag (e_flags (p_ent p)) IDX_F_FIRSTSEG) = false.

Definition isarch (s : fs) (p : part) : Prop := in_archive C L s (p_silo p) (p_off p) (p_rec p) (p_ent p).

Lemma iter_first s p e : isarch s p -> first_ok p ->
  (exists n o w, in_archive C L s n o w e /\ (lower (h_id (wr_hdr w)) = lower id -> e = p_ent p)) ->
  wpn (fun x o s' => o = [] /\ rely [] s s' /\
         ((x = ItNext /\ e <> p_ent p) \/ (exists g, x = ItGot g /\ gotten s' p 1 g))) [] s (getjob_iter C nid [] e).
Proof.
  intros IP (F1 & F2 & F3) (n & o & w & IA & U). unfold getjob_iter. apply wp_read; auto. intros s1 R _. cbn [exec snd].
  destruct (ent_eq_dec e (p_ent p)) as [->|NE].
  - eapply in_archive_rely in IP; [|exact R]. pose proof IP as (_ & (EN & _) & _). destruct (at_entry _ _ _ _ _ IP) as (b & a & H & B & z & wr & A1 & A2 & A3 & A4 & A5).
    rewrite A1, A5. cbn [lift bindp]. rewrite F2. cbn [andb]. unfold Header_Get_Id. fold (p_id p). rewrite F1.
    replace (caseeq id nid) with true by (symmetry; apply caseeq_lower; auto). cbn [negb]. rewrite F3. cbn [wp]. split; [auto|]. split; [auto|]. right.
    eexists. split; [reflexivity|]. unfold gotten. cbn [g_silo g_hdr g_flag g_cont g_segno g_boff g_blen]. split; [auto|]. split; [auto|]. split; [auto|].
    split; [auto|]. split; [auto|]. exists a, H, B, z, b, wr. rewrite <- EN. split; [auto|]. split; [auto|]. split; [auto|]. split; auto.
  - eapply in_archive_rely in IA; [|exact R]. destruct (at_entry _ _ _ _ _ IA) as (b & a & H & B & z & wr & A1 & A2 & A3 & A4 & A5).
    rewrite A1, A5. cbn [lift bindp]. unfold Header_Get_Id.
    replace (caseeq (h_id (wr_hdr w)) nid) with false by (symmetry; apply caseeq_lower_f; rewrite NID; auto). rewrite andb_false_r. cbn [negb wp].
    split; [auto|]. split; [auto|]. left. auto.
Qed.

Lemma loop_first es p : forall s, isarch s p -> first_ok p ->
  Forall (fun e => exists n o w, in_archive C L s n o w e /\ (lower (h_id (wr_hdr w)) = lower id -> e = p_ent p)) es -> In (p_ent p) es ->
  wpn (fun x o s' => o = [] /\ rely [] s s' /\ exists g, x = ItGot g /\ gotten s' p 1 g) [] s (iter_loop C nid [] es).
Proof.
  induction es as [|e r IH]; intros s IP FO FA HIn; [destruct HIn|]. inversion FA as [|? ? A1 A2]; subst. cbn [iter_loop].
  eapply wp_seq; [apply (iter_first s p e); auto|]. cbn beta. intros x o s' (-> & R & [(-> & NE)|(g & -> & G)]).
  - destruct HIn as [X|HIn]; [congruence|]. eapply wp_conseq; [|apply IH; auto].
    + cbn beta. intros y o s2 (-> & R2 & H). split; [auto|]. split; [eapply rely_trans; eauto|auto].
    + eapply in_archive_rely; eauto.
    + eapply Forall_impl; [|exact A2]. cbn beta. intros e' (n & o & w & H & U). exists n, o, w. split; [eapply in_archive_rely; eauto|auto].
  - cbn [wp]. split; [auto|]. split; [auto|]. eauto.
Qed.

Definition next_ok (k : N) (p : part) : Prop :=
  has (wr_hdr (p_rec p)) "WARC-Type" (str "continuation") /\
  has (wr_hdr (p_rec p)) "WARC-Segment-Origin-ID" (str "<" ++ prefix ++ id ++ str ">") /\
  has (wr_hdr (p_rec p)) "WARC-Segment-Number" (dec k).

Definition other (s : fs) (q : part) (e : ixent) : Prop := exists n o w oid, in_archive C L s n o w e /\ has (wr_hdr w) "WARC-Type" (str "continuation") /\
      has (wr_hdr w) "WARC-Segment-Origin-ID" (str "<" ++ prefix ++ oid ++ str ">") /\
      len oid = c_idsize C /\ (lower oid = lower id -> e = p_ent q).

Lemma cont_flag hd fl : hsorted (h_fields hd) -> has hd "WARC-Type" (str "continuation") -> flags_for hd fl -> flag fl IDX_F_WARCINFO = false.
Proof.
  intros S H F. rewrite (flags_val _ _ _ S H F). change (type_flag (str "continuation")) with 0. destruct (hget _ _); [|reflexivity].
  destruct (bytes_eqb _ _), (hget _ _); reflexivity.
Qed.

Lemma origin_checks oid : len oid = c_idsize C -> forall o, o = str "<" ++ prefix ++ oid ++ str ">" ->
  nth 0 o 0 =? 60 = true /\
  bytes_eqb (firstn (List.length prefix) (skipn 1 o)) prefix = true /\
  skipn (List.length prefix) (skipn 1 o) = oid ++ [62] /\
  nth (N.to_nat (c_idsize C)) (oid ++ [62]) 0 =? 62 = true /\ len (oid ++ [62]) =? c_idsize C + 1 = true /\
  ncaseeq (N.to_nat (c_idsize C)) (oid ++ [62]) nid = caseeq oid id.
Proof.
  intros LO o ->. change (str "<") with [60]. change (str ">") with [62]. split; [reflexivity|]. cbn [app skipn].
  rewrite firstn_app_len, skipn_app_len. split; [apply bytes_eqb_refl|]. split; [auto|]. rewrite <- LO. unfold len. rewrite Nat2N.id.
  split; [rewrite app_nth2, Nat.sub_diag by lia; reflexivity|]. split; [rewrite app_length; cbn [List.length]; lia|].
  unfold ncaseeq. rewrite firstn_app_len. assert (LN : List.length nid = List.length oid).
  { apply lower_len in NID. unfold len in *. lia. }
  rewrite <- LN, firstn_all. destruct (caseeq oid id) eqn:E.
  - apply caseeq_lower in E. apply caseeq_lower. congruence.
  - apply caseeq_lower_f in E. apply caseeq_lower_f. congruence.
Qed.

Lemma iter_next s q k last segs e : isarch s q -> next_ok k q -> 1 < k < 2 ^ 32 -> g_segno last = k - 1 -> other s q e ->
  wpn (fun x o s' => o = [] /\ rely [] s s' /\
         ((x = ItNext /\ e <> p_ent q) \/ (exists g, x = ItGot g /\ gotten s' q k g))) [] s (getjob_iter C nid (last :: segs) e).
Proof.
  intros IP (F1 & F2 & F3) K GL (n & o & w & oid & IA & T & OR & LO & U). unfold getjob_iter. apply wp_read; auto. intros s1 R _. cbn [exec snd].
  destruct (ent_eq_dec e (p_ent q)) as [->|NE].
  - eapply in_archive_rely in IP; [|exact R]. pose proof IP as (_ & (EN & _ & _ & FL & _) & _). destruct (at_entry _ _ _ _ _ IP) as (b & a & H & B & z & wr & A1 & A2 & A3 & A4 & A5).
    rewrite A1, A5. cbn [lift bindp]. rewrite (cont_flag _ _ A4 F1 FL). cbn [andb].
    rewrite has_get in F2, F3 by auto. unfold hget in F2. rewrite F2.
    destruct (origin_checks id LID _ eq_refl) as (O1 & O2 & O3 & O4 & O5 & O6). rewrite O1. cbn [assert bindp]. rewrite O2. cbn [assert bindp].
    cbv zeta. rewrite O3, O4, O5. cbn [assert bindp]. rewrite O6. replace (caseeq id id) with true by (symmetry; apply caseeq_lower; auto). cbn [negb].
    rewrite (number_exact _ _ _ F3) by apply dec_digits. rewrite dec_value_undec, undec_dec. replace (k <? 2 ^ 63) with true by lia. cbn [lift bindp].
    replace (0 <=? Z.of_N k)%Z with true by lia. cbn [assert bindp]. rewrite Z.mod_small, N2Z.id by lia. rewrite GL.
    replace (k - 1 + 1) with k by lia. rewrite N.mod_small by lia. rewrite N.eqb_refl. cbn [negb wp]. split; [auto|]. split; [auto|]. right.
    eexists. split; [reflexivity|]. unfold gotten. cbn [g_silo g_hdr g_flag g_cont g_segno g_boff g_blen]. split; [auto|]. split; [auto|]. split; [auto|].
    split; [auto|]. split; [auto|]. exists a, H, B, z, b, wr. rewrite <- EN. split; [auto|]. split; [auto|]. split; [auto|]. split; auto.
  - eapply in_archive_rely in IA; [|exact R]. pose proof IA as (_ & (_ & _ & _ & FL & _) & _). destruct (at_entry _ _ _ _ _ IA) as (b & a & H & B & z & wr & A1 & A2 & A3 & A4 & A5).
    rewrite A1, A5. cbn [lift bindp]. rewrite (cont_flag _ _ A4 T FL). cbn [andb].
    rewrite has_get in OR by auto. unfold hget in OR. rewrite OR.
    destruct (origin_checks oid LO _ eq_refl) as (O1 & O2 & O3 & O4 & O5 & O6). rewrite O1. cbn [assert bindp]. rewrite O2. cbn [assert bindp].
    cbv zeta. rewrite O3, O4, O5. cbn [assert bindp]. rewrite O6. replace (caseeq oid id) with false by (symmetry; apply caseeq_lower_f; auto). cbn [negb wp].
    split; [auto|]. split; [auto|]. left. auto.
Qed.

Lemma loop_next es q k last segs : next_ok k q -> 1 < k < 2 ^ 32 -> g_segno last = k - 1 -> forall s, isarch s q ->
  Forall (other s q) es -> In (p_ent q) es ->
  wpn (fun x o s' => o = [] /\ rely [] s s' /\ exists g, x = ItGot g /\ gotten s' q k g) [] s (iter_loop C nid (last :: segs) es).
Proof.
  intros NO K GL. induction es as [|e r IH]; intros s IP FA HIn; [destruct HIn|]. inversion FA as [|? ? A1 A2]; subst. cbn [iter_loop].
  eapply wp_seq; [apply (iter_next s q k last segs e); auto|]. cbn beta. intros x o s' (-> & R & [(-> & NE)|(g & -> & G)]).
  - destruct HIn as [X|HIn]; [congruence|]. eapply wp_conseq; [|apply IH; auto].
    + cbn beta. intros y o s2 (-> & R2 & H). split; [auto|]. split; [eapply rely_trans; eauto|auto].
    + eapply in_archive_rely; eauto.
    + eapply Forall_impl; [|exact A2]. cbn beta. intros e' (n & o & w & oid & H & U). exists n, o, w, oid. split; [eapply in_archive_rely; eauto|auto].
  - cbn [wp]. split; [auto|]. split; [auto|]. eauto.
Qed.

Lemma askedb_asked k e : askedb k e = true -> asked (Some k) e.
Proof.
  unfold askedb, asked. intros H. apply bytes_eqb_true in H. exists (skipn (List.length (firstn 24 (lower k))) (e_key e)).
  rewrite <- H at 1. symmetry. apply firstn_skipn.
Qed.

Lemma lower_idem s : lower (lower s) = lower s.
Proof.
  unfold lower. rewrite map_map. apply map_ext. intros c. unfold to_lower, is_upper.
  destruct ((65 <=? c) && (c <=? 90)) eqn:E; [|rewrite E; auto]. replace ((65 <=? c + 32) && (c + 32 <=? 90)) with false by lia. auto.
Qed.

Lemma lower_zeros n : lower (repeat 48 n) = repeat 48 n.
Proof. induction n; auto. cbn [repeat]. unfold lower in *. cbn [map]. rewrite IHn. auto. Qed.

Lemma lower_firstn n s : lower (firstn n s) = firstn n (lower s).
Proof. unfold lower. symmetry. apply firstn_map. Qed.

Lemma prefix_firstn {A} n m (a b : list A) : (n <= m)%nat -> firstn (List.length (firstn n a)) (firstn m (a ++ b)) = firstn n a.
Proof.
  intros H. rewrite firstn_firstn, firstn_app. rewrite firstn_length.
  replace (Nat.min (Nat.min n (List.length a)) m - List.length a)%nat with 0%nat by lia. cbn [firstn]. rewrite app_nil_r.
  rewrite (Nat.min_l _ m) by lia. destruct (Nat.le_ge_cases n (List.length a)).
  - rewrite Nat.min_l by lia. auto.
  - rewrite Nat.min_r by lia. rewrite firstn_all. symmetry. apply firstn_all2. lia.
Qed.

Lemma asked_self x e k : e_key e = pad 24 x -> lower k = lower x -> askedb k e = true.
Proof. intros E H. unfold askedb. rewrite E, H. unfold pad. rewrite prefix_firstn by lia. apply bytes_eqb_refl. Qed.

Lemma asked_cont x e : e_key e = pad 24 x -> askedb (pad 8 x) e = true.
Proof.
  intros E. unfold askedb. rewrite E. unfold pad. rewrite lower_firstn.
  assert (Lw : lower (lower x ++ repeat 48 8) = lower x ++ repeat 48 8).
  { unfold lower at 1. rewrite map_app. fold (lower (lower x)). fold (lower (repeat 48 8)). rewrite lower_idem, lower_zeros. auto. }
  rewrite Lw. replace (firstn 24 (firstn 8 (lower x ++ repeat 48 8))) with (firstn 8 (lower x ++ repeat 48 8))
    by (rewrite firstn_firstn; f_equal).
  change (repeat 48 24) with (repeat 48 8 ++ repeat 48 16). rewrite (app_assoc (lower x)).
  rewrite prefix_firstn by lia. apply bytes_eqb_refl.
Qed.

Fixpoint gottens (s : fs) (k : N) (ps : list part) (gs : list getjobseg) : Prop :=
  match ps, gs with
  | [], [] => True
  | p :: ps, g :: gs => gotten s p k g /\ gottens s (k + 1) ps gs
  | _, _ => False
  end.

Lemma gottens_rely s s' ps : rely [] s s' -> forall k gs, gottens s k ps gs -> gottens s' k ps gs.
Proof.
  intros R. induction ps as [|p ps IH]; intros k [|g gs] H; cbn [gottens] in *; try tauto. destruct H as [H1 H2].
  split; [eapply gotten_rely; eauto|auto].
Qed.

Variable data : bytes.

Lemma walk_rest ps : forall fuel k s p last segs, chain C L s id data k ps -> 1 < k -> k + N.of_nat (List.length ps) < 2 ^ 31 ->
  (forall s1, I s1 -> clear_rest C L s1 id p ps) -> g_cont last = e_cont (p_ent p) -> g_segno last = k - 1 ->
  (forall q r, ps = q :: r -> e_cont (p_ent p) = pad 8 (p_id q)) -> (List.length ps <= fuel)%nat ->
  wpn (fun a o s' => o = [] /\ rely [] s s' /\ exists gs, a = Some (rev (last :: segs) ++ gs) /\ gottens s' k ps gs)
      [] s (getjob_loop C fuel nid (last :: segs) (g_cont last)).
Proof.
  induction ps as [|q r IH]; intros fuel k s p last segs CH K KB CL GC GS EC FU; [destruct CH|].
  destruct fuel as [|fu]; [cbn [List.length] in FU; lia|]. cbn [getjob_loop]. cbn [List.length] in *. rewrite GC.
  apply wp_read; auto. intros s1 R1 I1. cbn [exec snd]. specialize (EC q r eq_refl).
  pose proof (chain_rely C L [] s s1 id data (q :: r) k CH R1) as CH1. cbn [chain] in CH1. destruct CH1 as ((IA & SN & PK) & NX).
  replace (k =? 1) with false in PK by lia. destruct PK as (PT & PO).
  pose proof IA as (INE & (E1 & E2 & E3 & E4 & E5) & _).
  eapply wp_seq; [apply (loop_next _ q k last segs)|].
  - split; [auto|split; auto].
  - lia.
  - auto.
  - exact IA.
  - apply Forall_forall. intros e He. apply filter_In in He. destruct He as (He1 & He2). destruct (CL s1 I1) as (CN & _). apply (CN e He1). apply askedb_asked. auto.
  - apply filter_In. split; [auto|]. rewrite EC. apply asked_cont. auto.
  - cbn beta. intros x o s2 (-> & R2 & g & -> & G). pose proof G as (G1 & G2 & G3 & G4 & G5 & _).
    assert (SO : hsorted (h_fields (wr_hdr (p_rec q)))) by (destruct (at_entry _ _ _ _ _ IA) as (? & ? & ? & ? & ? & ? & _ & _ & _ & X & _); auto).
    assert (FL : e_flags (p_ent q) = match r with [] => 80 | _ => 16 end).
    { rewrite (flags_val _ _ _ SO PT E4). rewrite has_get in SN by auto. rewrite SN.
      replace (bytes_eqb (dec k) (str "1")) with false.
      - destruct r; [rewrite has_get in NX by auto; rewrite NX; reflexivity|]. destruct NX as (NX & _). apply hasnt_get in NX. rewrite NX. reflexivity.
      - symmetry. destruct (bytes_eqb (dec k) (str "1")) eqn:X; auto. apply bytes_eqb_true in X. change (str "1") with (dec 1) in X. apply dec_inj in X. lia. }
    assert (R02 : rely [] s s2) by (eapply rely_trans; eauto).
    rewrite G3, FL. destruct r as [|q2 r].
    + cbn [flag N.land negb assert bindp wp]. change (flag 80 IDX_F_WARCINFO) with false. cbn [negb assert bindp].
      change (flag 80 IDX_F_SEGMENTED) with true. change (flag 80 IDX_F_LASTSEG) with true. cbn [negb wp]. split; [auto|]. split; [auto|].
      exists [g]. split; [|split; [auto|exact Logic.I]]. f_equal.
    + change (flag 16 IDX_F_WARCINFO) with false. cbn [negb assert bindp].
      change (flag 16 IDX_F_SEGMENTED) with true. change (flag 16 IDX_F_LASTSEG) with false. cbn [negb].
      destruct NX as (_ & NC & NX). eapply wp_conseq; [|apply (IH fu (k + 1) s2 q g (last :: segs))].
      * cbn beta. intros a o s3 (-> & R3 & gs & -> & H). split; [auto|]. split; [eapply rely_trans; eauto|]. exists (g :: gs).
        split; [|split; [eapply gotten_rely; eauto|auto]]. cbn [rev]. rewrite <- !app_assoc. reflexivity.
      * eapply chain_rely; eauto.
      * lia.
      * cbn [List.length] in *. lia.
      * intros s3 I3. destruct (CL s3 I3) as (_ & X). exact X.
      * auto.
      * lia.
      * intros q' r' X. injection X as <- <-. auto.
      * cbn [List.length] in *. lia.
Qed.

Variable typ : bytes.
Hypothesis TYP : typ = str "resource" \/ typ = str "metadata".

Lemma walk ps s fuel : stored_as C L s typ id data ps -> (forall s1, I s1 -> clear C L s1 id ps) ->
  N.of_nat (List.length ps) < 2 ^ 31 - 1 -> (List.length ps <= fuel)%nat ->
  wpn (fun a o s' => o = [] /\ rely [] s s' /\ exists gs, a = Some gs /\ gottens s' 1 ps gs)
      [] s (getjob_loop C fuel nid [] nid).
Proof.
  intros ST CL KB FU. destruct ps as [|p r]; [destruct ST as (_ & []) |].
  destruct fuel as [|fu]; [cbn [List.length] in FU; lia|]. cbn [getjob_loop]. cbn [List.length] in *.
  apply wp_read; auto. intros s1 R1 I1. cbn [exec snd].
  pose proof (stored_rely C L [] s s1 typ id data (p :: r) ST R1) as (_ & HT & HR).
  assert (IA : isarch s1 p) by (destruct r; [exact (proj1 HR)|destruct HR as ((HR & _) & _); exact HR]).
  assert (PI : p_id p = id) by (destruct r; [exact (proj1 (proj2 HR))|destruct HR as ((_ & _ & HR) & _); change (1 =? 1) with true in HR; exact (proj1 HR)]).
  pose proof IA as (INE & (E1 & E2 & E3 & E4 & E5) & _).
  assert (SO : hsorted (h_fields (wr_hdr (p_rec p)))) by (destruct (at_entry _ _ _ _ _ IA) as (? & ? & ? & ? & ? & ? & _ & _ & _ & X & _); auto).
  assert (FL : e_flags (p_ent p) = type_flag typ + match r with [] => 0 | _ => 48 end).
  { rewrite (flags_val _ _ _ SO HT E4). destruct r.
    - destruct HR as (_ & _ & HS & _). apply hasnt_get in HS. rewrite HS. lia.
    - destruct HR as ((_ & HS & _) & HN & _). rewrite has_get in HS by auto. rewrite HS. apply hasnt_get in HN. rewrite HN. change (bytes_eqb (dec 1) (str "1")) with true. cbv iota. lia. }
  assert (FO : first_ok p).
  { split; [auto|]. rewrite FL. destruct TYP as [-> | ->]; destruct r; split; reflexivity. }
  eapply wp_seq; [apply (loop_first _ p); auto|].
  - apply Forall_forall. intros e He. apply filter_In in He. destruct He as (He1 & He2). destruct (CL s1 I1) as (CF & _). apply (CF e He1).
    apply askedb_asked in He2. unfold asked in *. rewrite <- NID. auto.
  - apply filter_In. split; [auto|]. apply (asked_self (p_id p)); auto. rewrite PI. auto.
  - cbn beta. intros x o s2 (-> & R2 & g & -> & G). pose proof G as (G1 & G2 & G3 & G4 & G5 & _).
    assert (R02 : rely [] s s2) by (eapply rely_trans; eauto).
    rewrite G3. destruct FO as (_ & F2 & F3). rewrite F2. cbn [negb assert bindp]. rewrite FL. destruct r as [|q r].
    + replace (flag (type_flag typ + 0) IDX_F_SEGMENTED) with false by (destruct TYP as [-> | ->]; reflexivity). cbn [negb].
      replace (flag (type_flag typ + 0) IDX_F_FIRSTSEG) with false by (destruct TYP as [-> | ->]; reflexivity). cbn [negb assert bindp].
      replace (flag (type_flag typ + 0) IDX_F_LASTSEG) with false by (destruct TYP as [-> | ->]; reflexivity). cbn [negb assert bindp].
      rewrite G4. rewrite E5 by (destruct HR as (_ & _ & X & _); left; exact X). rewrite bytes_eqb_refl. cbn [assert bindp wp]. split; [auto|]. split; [auto|]. exists [g]. split; [auto|]. split; [auto|exact Logic.I].
    + replace (flag (type_flag typ + 48) IDX_F_SEGMENTED) with true by (destruct TYP as [-> | ->]; reflexivity). cbn [negb].
      replace (flag (type_flag typ + 48) IDX_F_LASTSEG) with false by (destruct TYP as [-> | ->]; reflexivity).
      cbn [chain] in HR. destruct HR as (_ & HN & HC & HR). eapply wp_conseq; [|apply (walk_rest (q :: r) fu (1 + 1) s2 p g [])].
      * cbn beta. intros a o s3 (-> & R3 & gs & -> & H). split; [auto|]. split; [eapply rely_trans; eauto|]. exists (g :: gs).
        split; [auto|split; [eapply gotten_rely; eauto|auto]].
      * eapply chain_rely; eauto.
      * lia.
      * lia.
      * intros s3 I3. destruct (CL s3 I3) as (_ & X). exact X.
      * auto.
      * lia.
      * intros q' r' X. injection X as <- <-. auto.
      * lia.
Qed.

(** * Bodies *)

Lemma bodies ps : forall s k gs, gottens s k ps gs ->
  wpn (fun d o s' => o = [] /\ rely [] s s' /\ d = List.concat (map (fun p => wr_data (p_rec p)) ps)) [] s (GetJob_Iter gs).
Proof.
  induction ps as [|p r IH]; intros s k [|g gs] G; cbn [gottens] in G; try contradiction; cbn [GetJob_Iter map List.concat].
  - cbn [wp]. split; [auto|]. split; [apply rely_refl|auto].
  - destruct G as (G & GR). apply wp_read; auto. intros s1 R1 _. cbn [exec snd].
    eapply gotten_rely in G; [|exact R1]. destruct G as (G1 & _ & _ & _ & _ & a & H & B & z & b & wr & F & -> & (_ & GB & _) & O & _).
    rewrite G1, F. unfold Rsilo_ReadChunk. rewrite O.
    replace (skipn (N.to_nat (len a + len H)) (a ++ H ++ B ++ z)) with (B ++ z).
    + destruct (gunzip_split _ _ _ GB) as (m & Em & Gm). rewrite app_nil_r in Em. subst m. rewrite Gm. cbn [lift bindp].
      eapply wp_seq; [apply (IH s1 (k + 1)); eapply gottens_rely; eauto|]. cbn beta. intros ds o s2 (-> & R2 & ->). cbn [wp].
      split; [auto|]. split; [eapply rely_trans; eauto|auto].
    + rewrite (app_assoc a H). rewrite <- len_app. symmetry. apply skipn_len.
Qed.

Lemma body_plain s s1 ps gs : stored_as C L s typ id data ps -> rely [] s s1 -> gottens s1 1 ps gs ->
  wpn (fun d o s' => o = [] /\ rely [] s1 s' /\ d = data) [] s1 (get_body C L false gs).
Proof.
  intros ST R1 G. unfold get_body. cbv zeta.
  eapply wp_seq; [apply (bodies ps s1 1 gs G)|]. cbn beta. intros d o s2 (-> & R2 & ->).
  assert (R02 : rely [] s s2) by (eapply rely_trans; eauto).
  pose proof (stored_rely C L [] s s2 typ id data ps ST R02) as ((ED & _) & ST2). rewrite ED.
  destruct ps as [|p r]; [destruct ST2|]. destruct gs as [|g gs]; [destruct G|]. cbn [gottens] in G. destruct G as (G & GR).
  destruct ST2 as (HT & ST2). destruct G as (_ & G2 & _).
  assert (REC : forall p, isarch s2 p -> describes (z_sha L) (wr_hdr (p_rec p)) (wr_data (p_rec p)) /\ hsorted (h_fields (wr_hdr (p_rec p)))).
  { clear. intros p (_ & _ & b & wr & a & r & z & _ & _ & _ & (H & B & _ & DS & _ & _ & (_ & W & _) & _)). auto. }
  rewrite G2. destruct r as [|q r].
  - destruct gs; [|destruct GR]. cbn [rev app]. destruct ST2 as (IA & _ & H1 & H2 & H3).
    destruct (REC p IA) as ((D1 & D2) & SO). rewrite has_get in D1, D2 by auto. unfold hget in *.
    apply hasnt_get in H2, H3. unfold hget in *. rewrite H2, D2.
    cbn [map List.concat] in ED. rewrite app_nil_r in ED. rewrite ED in *.
    change (firstn 7 (str "sha256:" ++ z_sha L data)) with (str "sha256:"). change (skipn 7 (str "sha256:" ++ z_sha L data)) with (z_sha L data).
    rewrite !bytes_eqb_refl. cbn [assert bindp]. rewrite G2, H3, D1, bytes_eqb_refl. cbn [assert bindp wp]. split; [auto|]. split; [auto|]. auto.
  - cbn [chain] in ST2. destruct ST2 as ((IA & _ & PK) & HN & HC & CH). change (1 =? 1) with true in PK. destruct PK as (_ & PD).
    destruct (REC p IA) as (_ & SO). rewrite has_get in PD by auto. unfold hget in PD. rewrite PD.
    change (firstn 7 (str "sha256:" ++ z_sha L data)) with (str "sha256:"). change (skipn 7 (str "sha256:" ++ z_sha L data)) with (z_sha L data).
    rewrite !bytes_eqb_refl. cbn [assert bindp].
    assert (LAST : forall r q k g gs, chain C L s2 id data k (q :: r) -> gottens s1 k (q :: r) gs -> exists gl gt, rev (g :: gs) = gl :: gt /\
       Header_Get (g_hdr gl) (str "WARC-Segment-Total-Length") = Some (dec (len data))).
    { clear - REC. induction r as [|q2 r IH]; intros q k g [|g2 gs] CH G; try contradiction; destruct G as [G GR].
      - destruct gs; [|destruct GR]. cbn [chain] in CH. destruct CH as ((IA & _) & TL). destruct (REC q IA) as (_ & SO).
        rewrite has_get in TL by auto. exists g2, [g]. split; [reflexivity|]. destruct G as (_ & -> & _). exact TL.
      - cbn [chain] in CH. destruct CH as (_ & _ & _ & CH). cbn [chain] in IH. destruct (IH q2 (k + 1) g2 gs CH GR) as (gl & gt & E & F).
        exists gl, (gt ++ [g]). split; [|auto]. cbn [rev]. cbn [rev] in E. rewrite E. auto. }
    destruct (LAST r q (1 + 1) g gs CH GR) as (gl & gt & E & F). rewrite E. rewrite F. rewrite bytes_eqb_refl. cbn [assert bindp wp]. split; [auto|]. split; [auto|]. auto.
Qed.
Lemma get_plain s ps arg : IDX_Valid_Id prefix (c_idsize C) arg = IdOk nid -> stored_as C L s typ id data ps ->
  (forall s1, I s1 -> clear C L s1 id ps) ->
  N.of_nat (List.length ps) < 2 ^ 31 - 1 -> (List.length ps <= c_fuel C)%nat ->
  wpn (fun a o s' => o = [] /\ rely [] s s' /\ a = Some data) [] s (main_get C L false arg).
Proof.
  intros V ST CL KB FU. unfold main_get, GetJob_New. rewrite V.
  eapply wp_seq; [apply (walk ps); auto|]. cbn beta. intros gj o s1 (-> & R1 & gs & -> & G).
  eapply wp_seq; [apply (body_plain s s1 ps gs ST R1 G)|]. cbn beta. intros d o s2 (-> & R2 & ->). cbn [wp].
  split; [auto|]. split; [eapply rely_trans; eauto|auto].
Qed.

(** * Compressed *)

Lemma chunk_pieces B : 24 <= len B -> pieces B (chunks (N.to_nat 131072) B).
Proof.
  intros LB. assert (K : (0 < N.to_nat 131072)%nat) by lia. revert K. assert (K2 : (24 <= N.to_nat 131072)%nat) by lia. revert K2.
  generalize (N.to_nat 131072). intros k K2 K. split; [apply concat_chunks; auto|]. split.
  - clear LB K2. remember (List.length B) as n eqn:E. revert B E. induction n as [n IH] using lt_wf_ind. intros B E.
    destruct B as [|c B]; [constructor|]. rewrite chunks_cons by (auto; discriminate). constructor.
    + destruct k; [lia|discriminate].
    + apply (IH (List.length (skipn k (c :: B)))); [|auto]. rewrite skipn_length. cbn [List.length] in *. lia.
  - rewrite chunks_cons; [|auto|intros ->; rewrite len_nil in LB; lia]. unfold len in *. rewrite firstn_length. lia.
Qed.

Lemma gzs ps : Forall (fun p => ~ has (wr_hdr (p_rec p)) "WARC-Type" (str "warcinfo")) ps -> forall s k gs, gottens s k ps gs ->
  (forall s1, I s1 -> forall n b w, f_silo s1 n = Some (b, w) -> len b < 2 ^ 32) ->
  wpn (fun x o s' => o = [] /\ rely [] s s' /\ exists segs, x = List.concat (map fst segs) /\ Forall ok_seg segs /\
         map snd segs = map (fun p => wr_data (p_rec p)) ps) [] s (gz_pieces gs).
Proof.
  intros NW. induction NW as [|p r NP NW IH]; intros s k [|g gs] G SM; cbn [gottens] in G; try contradiction; cbn [gz_pieces map].
  - cbn [wp]. split; [auto|]. split; [apply rely_refl|]. exists []. split; [auto|split; [constructor|auto]].
  - destruct G as (G & GR). apply wp_read; auto. intros s1 R1 I1. cbn [exec snd].
    eapply gotten_rely in G; [|exact R1]. destruct G as (G1 & _ & _ & _ & _ & a & H & B & z & b & wr & F & -> & (AA & GB & SY) & O & LB).
    rewrite G1, F. unfold Rsilo_ReadGZChunk. rewrite O, LB, N2Z.id.
    replace (file_read (a ++ H ++ B ++ z) (len a + len H) (len B)) with B.
    + apply aa_len in AA. pose proof (SM s1 I1 _ _ _ F) as SM'. rewrite !len_app in SM'.
      rewrite N.eqb_refl. rewrite N.mod_small by lia. replace (len B =? 0) with false by lia. cbn [negb andb].
      eapply wp_seq; [apply (IH s1 (k + 1) gs); [eapply gottens_rely; eauto|exact SM]|]. cbn beta. intros x o s2 (-> & R2 & segs & -> & O2 & MS). cbn [wp].
      split; [auto|]. split; [eapply rely_trans; eauto|]. exists ((chunks (N.to_nat 131072) B, wr_data (p_rec p)) :: segs). cbn [map fst snd List.concat].
      split; [auto|]. split; [|f_equal; auto]. constructor; [|auto]. exists B. cbn [fst snd]. split; [apply chunk_pieces; auto|]. destruct SY; [contradiction|auto].
    + unfold file_read. rewrite (app_assoc a H), <- len_app, skipn_len. unfold len. rewrite Nat2N.id. symmetry. apply firstn_app_len.
Qed.

Lemma get_zip s ps arg : IDX_Valid_Id prefix (c_idsize C) arg = IdOk nid -> stored_as C L s typ id data ps ->
  (forall s1, I s1 -> clear C L s1 id ps) ->
  (forall s1, I s1 -> forall n b w, f_silo s1 n = Some (b, w) -> len b < 2 ^ 32) ->
  comb_ok (z_comb L) -> Forall (fun p => len (wr_data (p_rec p)) < 2 ^ 32) (tl ps) ->
  N.of_nat (List.length ps) < 2 ^ 31 - 1 -> (List.length ps <= c_fuel C)%nat ->
  wpn (fun a o s' => o = [] /\ rely [] s s' /\ exists out, a = Some out /\ gunzip out = Some (data, [])) [] s (main_get C L true arg).
Proof.
  intros V ST CL SM CB TL KB FU. unfold main_get, GetJob_New. rewrite V.
  eapply wp_seq; [apply (walk ps); auto|]. cbn beta. intros gj o s1 (-> & R1 & gs & -> & G).
  pose proof ST as ((ED & _) & ST1).
  assert (NW : Forall (fun p => ~ has (wr_hdr (p_rec p)) "WARC-Type" (str "warcinfo")) ps).
  { assert (UQ : forall p t, isarch s p -> has (wr_hdr (p_rec p)) "WARC-Type" t -> t <> str "warcinfo" -> ~ has (wr_hdr (p_rec p)) "WARC-Type" (str "warcinfo")).
    { clear - CO. intros p t IA T NT T'. destruct (at_entry _ _ _ _ _ IA) as (? & ? & ? & ? & ? & ? & _ & _ & _ & SO & _). rewrite has_get in T, T' by auto. congruence. }
    destruct ps as [|p r]; [constructor|]. destruct ST1 as (HT & ST1).
    assert (TW : typ <> str "warcinfo") by (destruct TYP as [-> | ->]; discriminate).
    destruct r as [|q r].
    - constructor; [|constructor]. apply (UQ p typ); auto. apply ST1.
    - cbn [chain] in ST1. destruct ST1 as ((IA & _) & _ & _ & CH). constructor; [apply (UQ p typ); auto|]. clear - CH UQ.
      assert (K : 1 < 1 + 1) by lia. revert K CH. generalize (1 + 1). revert q. induction r as [|q2 r IH]; intros q k K CH; cbn [chain] in CH.
      + destruct CH as ((IA & _ & PK) & _). replace (k =? 1) with false in PK by lia. constructor; [|constructor]. apply (UQ q (str "continuation")); [auto|apply PK|discriminate].
      + destruct CH as ((IA & _ & PK) & _ & _ & CH). replace (k =? 1) with false in PK by lia.
        constructor; [apply (UQ q (str "continuation")); [auto|apply PK|discriminate]|]. apply (IH q2 (k + 1)); [lia|]. cbn [chain]. exact CH. }
  eapply wp_seq with (R := fun d o s' => o = [] /\ rely [] s s' /\ gunzip d = Some (data, [])).
  - unfold GetJob_Iter_gz. eapply wp_seq; [apply (gzs ps NW s1 1 gs G SM)|]. cbn beta. intros x o s2 (-> & R2 & segs & -> & OK & MS).
    assert (R02 : rely [] s s2) by (eapply rely_trans; eauto).
    destruct (stitch_correct (z_comb L) segs CB OK) as (out & E & GO).
    { clear - MS TL. destruct ps as [|p ps], segs as [|x segs]; try discriminate; cbn [tl map] in *; [constructor|]. injection MS as _ MS.
      revert segs MS. induction TL as [|p0 r0 H TL IH]; intros [|x0 segs] MS; try discriminate; [exact (Forall_nil _)|].
      cbn [map] in MS. injection MS as M1 M2. apply Forall_cons; [unfold bytes in *; rewrite M1; exact H|apply IH; exact M2]. }
    rewrite MS, ED in GO. destruct gs as [|g [|g2 gs]].
    + rewrite E. cbn [lift wp]. split; [auto|split; auto].
    + cbn [wp]. split; [auto|]. split; [auto|].
      assert (exists p, ps = [p]) as (p & ->).
      { destruct ps as [|p [|p2 ps]]; cbn [gottens] in G; try tauto. eauto. }
      destruct segs as [|x [|x2 segs]]; try discriminate. inversion OK as [|? ? (m & PC & SY) _]; subst. cbn [map List.concat] in *.
      injection MS as MS. rewrite !app_nil_r in *. destruct PC as (-> & _). rewrite <- MS. rewrite <- (app_nil_r m). apply synced_gunzip. auto.
    + rewrite E. cbn [lift wp]. split; [auto|split; auto].
  - cbn beta. intros d o s2 (-> & R2 & E). cbn [wp]. split; [auto|]. split; [auto|]. eauto.
Qed.
End Walk.
End Get.
