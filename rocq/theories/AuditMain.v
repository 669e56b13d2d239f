(* The audit of an archive at rest: what it prints if everything is in order. *)
From Coq Require Import String Sorting.Sorted Permutation.
From Coq Require Import ZifyBool ZifyNat ZifyN.
From Verif Require Import Base BaseLemmas ListLemmas IndexModel IndexSpec HeaderModel HeaderSpec HeaderProofs
  InflateSpec InflateProofs GzipModel GzipSpec GzipProofs ProgModel StoreModel StoreSpec StoreSysModel StoreWp StoreSys StoreHdr
  StoreCommit StoreMain StoreGet StoreWorld StoreCalls StoreAgain StoreOrigin ReindexSpec ReindexMain AuditModel AuditSpec AuditProofs.
Open Scope string_scope.
Open Scope list_scope.
Open Scope N_scope.
Ltac Zify.zify_post_hook ::= Z.div_mod_to_equations.

(** * Numbers *)

Lemma scan_digits : forall l a, Forall (fun c => is_digit c = true) l -> base_scan 10 a l = (fold_left (fun a c => a * 10 + (c - 48)) l a, []).
Proof.
  induction l as [|c l IH]; intros a F; auto. inversion F as [|? ? D F2]; subst. cbn [base_scan fold_left].
  assert (E : base_digit 10 c = Some (c - 48)).
  { unfold is_digit in D. unfold base_digit. replace ((48 <=? c) && (c <=? 57)) with true by lia. replace (c - 48 <? 10) with true by lia. auto. }
  rewrite E. apply IH. auto.
Qed.

Lemma dec_aux_first f : forall n, 0 < n -> n < 10 ^ N.of_nat f -> match dec_aux f n [] with c :: _ => 48 < c <= 57 | [] => False end.
Proof.
  induction f as [|f IH]; intros n P B; [change (10 ^ N.of_nat 0) with 1 in B; lia|]. cbn [dec_aux]. destruct (n <? 10) eqn:Q.
  - rewrite N.mod_small by lia. lia.
  - rewrite dec_aux_app. specialize (IH (n / 10)). rewrite Nat2N.inj_succ, N.pow_succ_r' in B.
    assert (X : match dec_aux f (n / 10) [] with c :: _ => 48 < c <= 57 | [] => False end) by (apply IH; lia).
    destruct (dec_aux f (n / 10) []); [destruct X|exact X].
Qed.

Lemma strtoul_dec n : 0 < n < 2 ^ 64 -> strtoul0 (dec n) = Some (n, []).
Proof.
  intros B. pose proof (dec_digits n) as F. pose proof (undec_dec n) as U. assert (X : match dec n with c :: _ => 48 < c <= 57 | [] => False end) by (apply dec_aux_first; [lia|apply dec_fuel]).
  pose proof (scan_digits (dec n) 0 F) as S. fold (undec (dec n)) in S. rewrite U in S. destruct (dec n) as [|c l]; [destruct X|].
  assert (SB : skip_blank (c :: l) = c :: l). { cbn [skip_blank]. replace ((c =? 32) || (9 <=? c) && (c <=? 13)) with false by lia. auto. }
  assert (D : base_digit 10 c = Some (c - 48)).
  { unfold base_digit. replace ((48 <=? c) && (c <=? 57)) with true by lia. replace (c - 48 <? 10) with true by lia. auto. }
  rewrite strtoul0_eq, SB, unsign_other by lia. cbn [fst snd]. rewrite magnitude_dec, D, S by lia. unfold value. replace (2 ^ 64 <=? n) with false by lia. reflexivity.
Qed.

Lemma num_dec n : 0 < n < 2 ^ 31 -> num (dec n) = Z.of_N n.
Proof. intros B. unfold num. rewrite strtoul_dec by lia. unfold to_int. rewrite N.mod_small by lia. replace (n <? 2 ^ 31) with true by lia. auto. Qed.

(** * Lists *)

Lemma sorted_same {A} (f : A -> N) : forall l l', StronglySorted (fun x y => f x < f y) l -> StronglySorted (fun x y => f x < f y) l' ->
  (forall x, In x l <-> In x l') -> l = l'.
Proof.
  induction l as [|x l IH]; intros l' S S' E.
  - destruct l' as [|y l']; auto. exfalso. apply (E y). left. auto.
  - destruct l' as [|y l']; [exfalso; apply (E x); left; auto|]. inversion S as [|? ? S1 S2]; subst. inversion S' as [|? ? T1 T2]; subst.
    rewrite Forall_forall in S2, T2.
    assert (x = y). { destruct (proj1 (E x) (or_introl eq_refl)) as [|X]; auto. destruct (proj2 (E y) (or_introl eq_refl)) as [|Y]; auto.
      specialize (T2 _ X). specialize (S2 _ Y). cbn beta in *. lia. }
    subst y. f_equal. apply IH; auto. intros z. split; intros Z.
    + destruct (proj1 (E z) (or_intror Z)) as [<-|]; auto. specialize (S2 _ Z). cbn beta in S2. lia.
    + destruct (proj2 (E z) (or_intror Z)) as [<-|]; auto. specialize (T2 _ Z). cbn beta in T2. lia.
Qed.

Lemma sorted_filter {A} (R : A -> A -> Prop) g : forall l, StronglySorted R l -> StronglySorted R (filter g l).
Proof.
  induction l as [|x l IH]; intros S; [constructor|]. inversion S as [|? ? S1 S2]; subst. cbn [filter]. destruct (g x); auto. constructor; auto.
  rewrite Forall_forall in *. intros y Y. apply filter_In in Y. apply S2, Y.
Qed.

Lemma sorted_impl {A} (R R' : A -> A -> Prop) : forall l, (forall x y, In x l -> In y l -> R x y -> R' x y) -> StronglySorted R l -> StronglySorted R' l.
Proof.
  induction l as [|x l IH]; intros I S; [constructor|]. inversion S as [|? ? S1 S2]; subst. constructor.
  - apply IH; auto. intros y z Y Z. apply I; right; auto.
  - rewrite Forall_forall in *. intros y Y. apply I; [left|right|]; auto.
Qed.

Lemma sorted_app {A} (R : A -> A -> Prop) : forall l l', StronglySorted R l -> StronglySorted R l' -> (forall x y, In x l -> In y l' -> R x y) -> StronglySorted R (l ++ l').
Proof.
  induction l as [|x l IH]; intros l' S S' X; auto. inversion S as [|? ? S1 S2]; subst. cbn [app]. constructor.
  - apply IH; auto. intros y z Y Z. apply X; [right|]; auto.
  - apply Forall_app. split; auto. apply Forall_forall. intros y Y. apply X; [left|]; auto.
Qed.

Lemma filter_map {A B} (f : A -> B) g : forall l, filter g (map f l) = map f (filter (fun x => g (f x)) l).
Proof. induction l as [|x l IH]; auto. cbn [map filter]. rewrite IH. destruct (g (f x)); auto. Qed.

Lemma filter_filter {A} (f g : A -> bool) : forall l, filter f (filter g l) = filter (fun x => g x && f x) l.
Proof. induction l as [|x l IH]; auto. cbn [filter]. destruct (g x); cbn [filter andb]; rewrite IH; auto. Qed.

Lemma filter_none {A} (f : A -> bool) l : (forall x, In x l -> f x = false) -> filter f l = [].
Proof. induction l as [|x l IH]; intros H; auto. cbn [filter]. rewrite (H x) by (left; auto). apply IH. intros y Y. apply H. right. auto. Qed.

Lemma filter_every {A} (f : A -> bool) l : (forall x, In x l -> f x = true) -> filter f l = l.
Proof. induction l as [|x l IH]; intros H; auto. cbn [filter]. rewrite (H x) by (left; auto). f_equal. apply IH. intros y Y. apply H. right. auto. Qed.

Lemma none_filter {A} (f : A -> bool) l x : filter f l = [] -> In x l -> f x = false.
Proof. intros E X. destruct (f x) eqn:Q; auto. assert (In x (filter f l)) by (apply filter_In; auto). rewrite E in H. destruct H. Qed.

Section Main.
Variable C : conf.
Variable L : zlib.
Variable ign : bool.
Notation prefix := (c_prefix C).

(** * Single records *)

Lemma digest_good hd n x : hsorted (h_fields hd) -> has hd n (str "sha256:" ++ x) -> check_digest_header hd n x = Ok [].
Proof.
  intros S X. apply has_get in X; auto. unfold hget in X. unfold check_digest_header. rewrite X.
  replace (len (str "sha256:" ++ x) <? 6) with false by (rewrite len_app; change (len (str "sha256:")) with 7; lia).
  change (firstn 7 (str "sha256:" ++ x)) with (str "sha256:"). change (skipn 7 (str "sha256:" ++ x)) with x. rewrite !bytes_eqb_refl. reflexivity.
Qed.

Lemma id_good hd dig : hsorted (h_fields hd) -> named_for C L hd dig -> check_id C L hd dig = Ok [].
Proof.
  intros S N. assert (O : exists id, Ident_Create (z_sha L) (c_idsize C) hd dig = Ok id).
  { unfold Ident_Create. destruct N as [(T & _)|(T & ref & R & _)].
    - rewrite !has_get in T by auto. unfold hget in T. destruct T as [T|[T|T]]; rewrite T; eexists; reflexivity.
    - apply has_get in T; auto. apply has_get in R; auto. unfold hget in *. rewrite T, R. eexists. reflexivity. }
  destruct O as (id & O). unfold check_id. rewrite O. cbn [bind]. apply (ident_iff C L hd dig id S O) in N. subst id. unfold Header_Get_Id. rewrite bytes_eqb_refl. reflexivity.
Qed.

Definition seg_no (w : wrec) : option Z := option_map num (hget (wr_hdr w) "WARC-Segment-Number").
Definition fine (w : wrec) : Prop := forall m o1, audit_one C L ign (wr_hdr w) (wr_data w) (Z.of_N m) o1 (o1 + m) = Ok ([], seg_no w).

Lemma fine_ok w : hsorted (h_fields (wr_hdr w)) -> describes (z_sha L) (wr_hdr w) (wr_data w) ->
  (hasnt (wr_hdr w) "WARC-Segment-Number" \/ exists k, has (wr_hdr w) "WARC-Segment-Number" (dec k) /\ 0 < k < 2 ^ 64) ->
  (exists t, has (wr_hdr w) "WARC-Type" t) ->
  (has (wr_hdr w) "WARC-Segment-Number" (str "1") \/ (ign = true /\ has (wr_hdr w) "WARC-Type" (str "metadata")) \/
   named_for C L (wr_hdr w) (z_sha L (wr_data w))) -> fine w.
Proof.
  intros S (D1 & D2) SN (t & T) N m o1. unfold audit_one. rewrite (digest_good _ _ _ S D2). cbn [bind]. apply (check_header_iff _ _ _ S) in D1. rewrite D1. cbn [app].
  replace (Z.of_N m =? Z.of_N (o1 + m) - Z.of_N o1)%Z with true by lia. fold (hget (wr_hdr w) "WARC-Segment-Number"). unfold seg_no.
  apply has_get in T; auto. rewrite !has_get in N by auto.
  assert (I : hget (wr_hdr w) "WARC-Segment-Number" <> Some (str "1") -> audit_check_ident C L ign (wr_hdr w) (z_sha L (wr_data w)) = Ok []).
  { intros NE. unfold audit_check_ident. fold (hget (wr_hdr w) "WARC-Type"). rewrite T in *. destruct N as [N|[(-> & N)|N]]; [contradiction| |].
    - injection N as ->. rewrite bytes_eqb_refl. reflexivity.
    - rewrite id_good by auto. destruct (_ || _); auto. }
  destruct SN as [SN|(k & SN & K)].
  - apply hasnt_get in SN. rewrite SN in *. rewrite I by discriminate. reflexivity.
  - apply has_get in SN; auto. rewrite SN in *. cbn [option_map]. unfold num. rewrite strtoul_dec by auto. destruct (bytes_eqb (dec k) (str "1")) eqn:Q; [reflexivity|].
    apply bytes_eqb_false in Q. rewrite I by congruence. reflexivity.
Qed.

(** * A silo *)

Hypothesis CO : conf_ok C.

Definition of_seg (a : aud) : Prop := seg_no (arec a) = Some (a_no a).

Lemma loop_good n : forall b l a fuel ng tg, layout C L (len a) b l -> Forall (fun x => fine (snd x)) l -> (List.length b < fuel)%nat ->
  exists segs, silo_loop C L ign fuel n (a ++ b) (len a) ng tg 0 = Ok ([LTotal (tg + len l) 0], segs) /\
  map arec segs = filter segb (map snd l) /\ Forall of_seg segs.
Proof.
  intros b l a fuel ng tg LY. remember (len a) as o eqn:EO. revert a fuel ng tg EO.
  induction LY as [o|o r w s l R LY IH]; intros a fuel ng tg -> F HF; (destruct fuel as [|fuel]; [lia|]); cbn [silo_loop].
  - rewrite app_nil_r. unfold Rsilo_ReadHeader, file_read. rewrite skipn_all2 by (unfold len; lia). rewrite firstn_nil. cbn [bind].
    exists []. rewrite N.add_0_r. split; [reflexivity|]. split; auto.
  - destruct (read_header C L CO a r s w R) as (H & B & E & BB & RH). rewrite RH. cbn [bind].
    inversion F as [|? ? F1 F2]; subst. cbn [snd] in F1. destruct BB as (_ & GB & _).
    assert (RC : read_chunk (a ++ (H ++ B ++ crnlcrnl) ++ s) (len a + len H) = Ok (wr_data w, len a + len H + len B)).
    { unfold read_chunk. rewrite skipn_add by (rewrite len_app; lia). rewrite skipn_front, <- !app_assoc, skipn_front.
      destruct (gunzip_split _ _ _ GB) as (m & Em & Gm). rewrite app_nil_r in Em. subst m. rewrite Gm. do 2 f_equal. rewrite !len_app. lia. }
    rewrite RC. cbn [bind].
    assert (SC : skip_crnl (a ++ (H ++ B ++ crnlcrnl) ++ s) (len a + len H + len B) = Ok (len (a ++ H ++ B ++ crnlcrnl))).
    { unfold skip_crnl, file_read. rewrite <- N.add_assoc, skipn_add by (rewrite len_app; lia). rewrite skipn_front, <- !app_assoc, skipn_add by (rewrite len_app; lia).
      rewrite skipn_front, skipn_front. replace (firstn (N.to_nat (len crnlcrnl)) (crnlcrnl ++ s)) with crnlcrnl.
      - rewrite bytes_eqb_refl. f_equal. rewrite !len_app. lia.
      - unfold len. rewrite Nat2N.id, firstn_app, Nat.sub_diag, firstn_all, app_nil_r. auto. }
    rewrite SC. cbn [bind]. rewrite F1. cbn [bind].
    set (r := H ++ B ++ crnlcrnl) in *. rewrite app_assoc.
    destruct (IH (a ++ r) fuel (ng + 1) (tg + 1)) as (segs & I1 & I2 & I3); [rewrite len_app; auto|auto| |].
    { unfold r in HF. rewrite !app_length in HF. pose proof (eq_refl : len crnlcrnl = 24) as L24. unfold len in L24. lia. }
    rewrite (len_app a r), I1. cbn [bind]. eexists. split; [rewrite len_cons; replace (tg + 1 + len l) with (tg + (1 + len l)) by lia; reflexivity|].
    rewrite map_app, I2. cbn [map snd filter]. unfold segb at 2. unfold seg_no. destruct (hget (wr_hdr w) "WARC-Segment-Number") as [v|] eqn:V; cbn [option_map app map].
    + split; [unfold arec at 1; cbn [a_hdr a_data]; destruct w; reflexivity|]. constructor; auto. unfold of_seg, seg_no, arec. cbn [wr_hdr a_hdr a_no]. rewrite V. reflexivity.
    + auto.
Qed.

Lemma silos_good : forall l pss, Forall2 (listed C L) l pss -> Forall (fun p => fine (p_rec p)) (List.concat pss) ->
  exists segs, audit_silos C L ign (map (fun x => (Z.of_N (fst x), snd x)) l) =
    Ok (flat_map (fun x => [LSilo (Z.of_N (fst (fst x))); LTotal (len (snd x)) 0]) (combine l pss), segs) /\
  map arec segs = filter segb (map p_rec (List.concat pss)) /\ Forall of_seg segs.
Proof.
  induction 1 as [|(n, b) ps l pss (LY & SN) F IH]; intros FI.
  - exists []. split; [reflexivity|]. split; [reflexivity|constructor].
  - cbn [List.concat] in *. apply Forall_app in FI. destruct FI as (FI1 & FI2). destruct (IH FI2) as (s2 & I1 & I2 & I3).
    cbn [fst snd] in *. destruct (loop_good (Z.of_N n) b _ [] (S (List.length b)) 0 0 LY) as (s1 & J1 & J2 & J3); [|lia|].
    { clear - FI1. induction FI1; constructor; auto. }
    cbn [map audit_silos fst snd]. unfold audit_silo. cbn [app len] in J1. change (len (@nil N)) with 0 in J1. rewrite J1. cbn [bind]. rewrite I1. cbn [bind].
    exists (s1 ++ s2). split; [|split].
    + cbn [combine flat_map app fst snd]. replace (0 + len (map (fun p => (p_off p, p_rec p)) ps)) with (len ps) by (unfold len; rewrite map_length; lia). reflexivity.
    + rewrite !map_app, filter_app, I2, J2. f_equal. rewrite map_map. reflexivity.
    + apply Forall_app. auto.
Qed.

(** * Objects *)

Definition first (w : wrec) : bool := match seg_no w with Some z => (z =? 1)%Z | None => false end.
Definition oid (w : wrec) : bytes :=
  if first w then h_id (wr_hdr w)
  else match hget (wr_hdr w) "WARC-Segment-Origin-ID" with
       | Some v => firstn (N.to_nat (c_idsize C)) (skipn (List.length prefix) (tl v))
       | None => []
       end.
Definition isid (id : bytes) (w : wrec) : bool := bytes_eqb (oid w) id.

(* a segment with a number and the object it is of *)
Definition seg_ok (w : wrec) : Prop := exists id k, seg_no w = Some (Z.of_N k) /\ 1 <= k < 2 ^ 31 - 1 /\ len id = c_idsize C /\ oid w = id /\
  if k =? 1 then h_id (wr_hdr w) = id else hget (wr_hdr w) "WARC-Segment-Origin-ID" = Some (str "<" ++ prefix ++ id ++ str ">").

Lemma follows_seg id ap x : len id = c_idsize C -> (1 <= a_no ap < 2 ^ 31 - 1)%Z -> of_seg x -> seg_ok (arec x) ->
  follows C id ap x = Ok ((a_no x =? a_no ap + 1)%Z && isid id (arec x)).
Proof.
  intros LI B OS (id' & k & N1 & K & L1 & O & H). unfold of_seg in OS. assert (NX : a_no x = Z.of_N k) by congruence. unfold follows.
  replace (a_no ap =? 2 ^ 31 - 1)%Z with false by lia. destruct (a_no x =? a_no ap + 1)%Z eqn:Q; cbn [negb andb]; [|reflexivity].
  replace (k =? 1) with false in H by lia. cbn [arec wr_hdr] in H. unfold hget in H. rewrite H.
  change (str "<" ++ prefix ++ id' ++ str ">") with (60 :: prefix ++ id' ++ str ">"). cbn [N.eqb Pos.eqb negb].
  replace (len (prefix ++ id' ++ str ">") + 1 <? len prefix) with false by (rewrite len_app; lia).
  rewrite firstn_app, Nat.sub_diag, firstn_all. cbn [firstn]. rewrite app_nil_r, bytes_eqb_refl. cbn [negb].
  rewrite skipn_app, Nat.sub_diag, skipn_all. cbn [skipn app]. assert (LL : List.length id' = List.length id) by (unfold len in *; lia).
  rewrite firstn_app, <- LL, Nat.sub_diag, firstn_all. cbn [firstn]. rewrite app_nil_r. unfold isid. rewrite O. destruct (bytes_eqb id' id) eqn:E; cbn [negb]; [|reflexivity].
  rewrite skipn_app, Nat.sub_diag, skipn_all. reflexivity.
Qed.

Fixpoint consec (k : Z) (l : list aud) : Prop := match l with [] => True | x :: r => a_no x = k /\ consec (k + 1) r end.

Lemma pass_all id : len id = c_idsize C -> forall l ap d mv ys x, Forall of_seg l -> Forall (fun a => seg_ok (arec a)) l -> (1 <= a_no ap < 2 ^ 31 - 1)%Z ->
  filter (fun a => isid id (arec a)) l = ys ++ [x] -> consec (a_no ap + 1) (ys ++ [x]) -> Forall unlast ys -> hget (a_hdr x) "WARC-Segment-Total-Length" <> None ->
  exists ap' mv', pass C id ap d mv l = Ok (ap', d ++ List.concat (map a_data (ys ++ [x])), mv', filter (fun a => negb (isid id (arec a))) l, Some x).
Proof.
  intros LI. induction l as [|y l IH]; intros ap d mv ys x F1 F2 B E CS U T; [destruct ys; discriminate E|].
  inversion F1 as [|? ? A1 A2]; subst. inversion F2 as [|? ? B1 B2]; subst. cbn [pass filter] in *. rewrite follows_seg by auto. cbn [bind].
  destruct (isid id (arec y)) eqn:Q; cbn [negb].
  - destruct ys as [|y' ys].
    + cbn [app] in *. injection E as -> E. destruct CS as (CS & _). replace (a_no x =? a_no ap + 1)%Z with true by lia. cbn [andb].
      fold (hget (a_hdr x) "WARC-Segment-Total-Length"). destruct (hget (a_hdr x) "WARC-Segment-Total-Length"); [|contradiction].
      exists ap, mv. cbn [map List.concat]. rewrite app_nil_r. do 3 f_equal. symmetry. apply filter_every. intros z Z. rewrite (none_filter _ _ _ E Z). reflexivity.
    + cbn [app] in *. injection E as -> E. destruct CS as (CS & CS2). replace (a_no y' =? a_no ap + 1)%Z with true by lia. cbn [andb].
      inversion U as [|? ? U1 U2]; subst. apply hasnt_get in U1. fold (hget (a_hdr y') "WARC-Segment-Total-Length"). rewrite U1.
      assert (B' : (1 <= a_no y' < 2 ^ 31 - 1)%Z). { destruct B1 as (i' & k & N1 & K & _). unfold of_seg in A1. assert (a_no y' = Z.of_N k) by congruence. lia. }
      destruct (IH y' (d ++ a_data y') true ys x A2 B2 B' E) as (ap' & mv' & I); [rewrite CS; auto|auto|auto|]. exists ap', mv'. rewrite I. cbn [map List.concat]. rewrite <- app_assoc. reflexivity.
  - rewrite andb_false_r. destruct (IH ap d mv ys x A2 B2 B E CS U T) as (ap' & mv' & I). exists ap', mv'. rewrite I. reflexivity.
Qed.

(* all objects of which there are segments are complete, the later segments in order *)
Definition objects (l : list aud) : Prop := forall a, In a l -> exists f ys x,
  filter (fun b => isid (oid (arec a)) (arec b) && first (arec b)) l = [f] /\
  filter (fun b => isid (oid (arec a)) (arec b) && negb (first (arec b))) l = ys ++ [x] /\
  consec 2 (ys ++ [x]) /\ Forall unlast ys /\ hget (a_hdr x) "WARC-Segment-Total-Length" <> None /\
  audit_final C L f x (a_data f ++ List.concat (map a_data (ys ++ [x]))) = Ok [].

Lemma take_split : forall l f l0, take_first l = Some (f, l0) -> exists a b, l = a ++ f :: b /\ l0 = a ++ b /\ (forall x, In x a -> a_no x <> 1%Z) /\ a_no f = 1%Z.
Proof.
  induction l as [|y l IH]; intros f l0 E; [discriminate E|]. cbn [take_first] in E. destruct (a_no y =? 1)%Z eqn:Q.
  - injection E as <- <-. exists [], l. split; [auto|]. split; [auto|]. split; [intros x []|lia].
  - destruct (take_first l) as [[z q]|]; [|discriminate E]. injection E as <- <-. destruct (IH _ _ eq_refl) as (a & b & -> & -> & H1 & H2).
    exists (y :: a), b. split; [auto|]. split; [auto|]. split; auto. intros x [<-|X]; [lia|auto].
Qed.

Lemma take_none : forall l, take_first l = None -> forall x, In x l -> a_no x <> 1%Z.
Proof.
  induction l as [|y l IH]; intros E x X; [destruct X|]. cbn [take_first] in E. destruct (a_no y =? 1)%Z eqn:Q; [discriminate E|].
  destruct (take_first l) as [[z q]|]; [discriminate E|]. destruct X as [<-|X]; [lia|auto].
Qed.

Lemma first_no a : of_seg a -> first (arec a) = (a_no a =? 1)%Z.
Proof. unfold of_seg, first. intros ->. reflexivity. Qed.

Lemma pending_good : forall fuel l, Forall of_seg l -> Forall (fun a => seg_ok (arec a)) l -> objects l -> (List.length l < fuel)%nat ->
  audit_pending C L fuel l = Ok (map (fun w => LObject (h_id (wr_hdr w))) (filter first (map arec l))).
Proof.
  induction fuel as [|fuel IH]; intros l F1 F2 OB LF; [lia|]. cbn [audit_pending]. destruct (take_first l) as [[f l0]|] eqn:T.
  - destruct (take_split _ _ _ T) as (a & b & EL & -> & NA & N1).
    assert (If : In f l) by (rewrite EL; apply in_elt). rewrite Forall_forall in F1, F2.
    destruct (OB f If) as (f' & ys & x & O1 & O2 & O3 & O4 & O5 & O6).
    assert (FF : first (arec f) = true) by (rewrite first_no by auto; lia).
    assert (OI : oid (arec f) = h_id (a_hdr f)) by (unfold oid; rewrite FF; reflexivity). set (id := oid (arec f)) in *.
    assert (IS : isid id (arec f) = true) by (unfold isid; apply bytes_eqb_refl).
    assert (LI : len id = c_idsize C). { destruct (F2 f If) as (i & k & _ & _ & X & Y & _). unfold id. congruence. }
    assert (SP : f' = f /\ filter (fun b => isid id (arec b) && first (arec b)) a = [] /\ filter (fun b => isid id (arec b) && first (arec b)) b = []).
    { rewrite EL, filter_app in O1. cbn [filter] in O1. rewrite IS, FF in O1. cbn [andb] in O1.
      destruct (filter _ a) as [|z r]; [injection O1 as O1 O1'; auto|]. injection O1 as -> O1. destruct r; discriminate O1. }
    destruct SP as (-> & SA & SB).
    assert (FL : filter (fun b => isid id (arec b)) (a ++ b) = ys ++ [x]).
    { rewrite <- O2, EL, !filter_app. cbn [filter]. rewrite IS, FF. cbn [andb negb].
      assert (G : forall q, filter (fun b => isid id (arec b) && first (arec b)) q = [] -> filter (fun b => isid id (arec b)) q = filter (fun b => isid id (arec b) && negb (first (arec b))) q).
      { intros q Q. apply filter_ext_in. intros z Z. pose proof (none_filter _ _ _ Q Z) as Y. cbn beta in Y. destruct (isid id (arec z)), (first (arec z)); auto. }
      rewrite (G a SA), (G b SB). reflexivity. }
    destruct fuel as [|fuel]; [rewrite EL, app_length in LF; cbn [List.length] in LF; lia|]. cbn [pend_loop]. unfold Header_Get_Id at 1. rewrite <- OI.
    destruct (pass_all id LI (a ++ b) f (a_data f) false ys x) as (ap' & mv' & PA); auto.
    { apply Forall_forall. intros z Z. apply F1. rewrite EL. apply in_app_iff in Z. apply in_app_iff. cbn [In]. tauto. }
    { apply Forall_forall. intros z Z. apply F2. rewrite EL. apply in_app_iff in Z. apply in_app_iff. cbn [In]. tauto. }
    { lia. } { rewrite N1. exact O3. }
    rewrite PA. cbn [bind]. rewrite O6. cbn [bind].
    set (l1 := filter (fun a0 => negb (isid id (arec a0))) (a ++ b)) in *.
    assert (L1 : l1 = filter (fun a0 => negb (isid id (arec a0))) l). { unfold l1. rewrite EL, !filter_app. cbn [filter]. rewrite IS. reflexivity. }
    rewrite (IH l1).
    + cbn [bind]. f_equal. rewrite EL, map_app, filter_app. cbn [map filter]. rewrite FF.
      assert (NF : filter first (map arec a) = []). { rewrite filter_map, filter_none; [reflexivity|]. intros z Z. rewrite first_no; [specialize (NA z Z); lia|]. apply F1. rewrite EL. apply in_app_iff. auto. }
      rewrite NF. cbn [app map arec wr_hdr]. unfold Header_Get_Id. f_equal. unfold l1.
      rewrite filter_app, !map_app, filter_app. rewrite (filter_map arec first (filter _ a)), filter_filter.
      rewrite (filter_none (fun x0 => _ && first (arec x0)) a). 2:{ intros z Z. rewrite first_no; [specialize (NA z Z); replace (a_no z =? 1)%Z with false by lia; apply andb_false_r|]. apply F1. rewrite EL. apply in_app_iff. auto. }
      cbn [map app]. rewrite !filter_map, filter_filter. f_equal. f_equal. apply filter_ext_in. intros z Z. pose proof (none_filter _ _ _ SB Z) as Y. cbn beta in Y. destruct (isid id (arec z)), (first (arec z)); auto; discriminate Y.
    + rewrite L1. apply Forall_forall. intros z Z. apply filter_In in Z. apply F1, Z.
    + rewrite L1. apply Forall_forall. intros z Z. apply filter_In in Z. apply F2, Z.
    + rewrite L1. intros z Z. apply filter_In in Z. destruct Z as (Z & NI). apply negb_true_iff in NI. destruct (OB z Z) as (g & zs & q & P1 & P2 & P3).
      exists g, zs, q. rewrite !filter_filter.
      assert (G : forall y, isid (oid (arec z)) (arec y) = true -> isid id (arec y) = false).
      { intros y Y. unfold isid in *. apply bytes_eqb_true in Y. rewrite Y. exact NI. }
      split; [|split; [|exact P3]]; [rewrite <- P1|rewrite <- P2]; apply filter_ext; intros y; destruct (isid (oid (arec z)) (arec y)) eqn:Y; cbn [andb]; rewrite ?(G y Y); cbn [negb andb]; rewrite ?andb_false_r; reflexivity.
    + unfold l1. assert (X : forall g (q : list aud), (List.length (filter g q) <= List.length q)%nat). { intros g q. induction q as [|z q IHq]; cbn [filter]; [lia|]. destruct (g z); cbn [List.length]; lia. }
      specialize (X (fun a0 => negb (isid id (arec a0))) (a ++ b)). rewrite EL in LF. rewrite app_length in *. cbn [List.length] in LF. lia.
  - destruct l as [|a l]; [reflexivity|]. exfalso. destruct (OB a (or_introl eq_refl)) as (f & ys & x & O1 & _).
    assert (X : In f [f]) by (left; auto). rewrite <- O1 in X. apply filter_In in X. destruct X as (X1 & X2). apply andb_prop in X2. destruct X2 as (_ & X2).
    rewrite Forall_forall in F1. rewrite first_no in X2 by auto. apply (take_none _ T f X1). lia.
Qed.

(** * Archives *)

Lemma gunzip_front H t x H' t' x' : gunzip H = Some (t, []) -> gunzip H' = Some (t', []) -> H ++ x = H' ++ x' -> x = x' /\ t = t'.
Proof.
  intros G G' E. destruct (gunzip_split _ _ _ G) as (m & Em & Gm). rewrite app_nil_r in Em. subst m.
  destruct (gunzip_split _ _ _ G') as (m & Em & Gm'). rewrite app_nil_r in Em. subst m. specialize (Gm x). specialize (Gm' x'). rewrite E in Gm. rewrite Gm in Gm'. injection Gm' as -> ->. auto.
Qed.

Lemma same_rec s n o w n' o' w' e : in_archive C L s n o w e -> in_archive C L s n' o' w' e -> w = w'.
Proof.
  intros A B. pose proof (same_hdr C L CO _ _ _ _ _ _ _ _ A B) as EH.
  destruct A as (_ & (A1 & A2 & _) & b & wr & a & r & z & F & Eb & La & R), B as (_ & (B1 & B2 & _) & b' & wr' & a' & r' & z' & F' & Eb' & La' & R').
  assert (En : n' = n) by congruence. assert (Eo : o' = o) by congruence. subst n' o'. assert (E0 : b' = b) by congruence. rewrite E0 in Eb'.
  assert (E : r ++ z = r' ++ z'). { assert (X : skipn (N.to_nat (len a)) b = r ++ z) by (rewrite Eb; apply skipn_front).
    assert (Y : skipn (N.to_nat (len a')) b = r' ++ z') by (rewrite Eb'; apply skipn_front). congruence. }
  destruct R as (H & B & -> & _ & _ & G & _ & _ & _ & _ & GB & _), R' as (H' & B' & -> & _ & _ & G' & _ & _ & _ & _ & GB' & _).
  rewrite <- !app_assoc in E. destruct (gunzip_front _ _ _ _ _ _ G G' E) as (E2 & _). destruct (gunzip_front _ _ _ _ _ _ GB GB' E2) as (_ & E3).
  destruct w as [h1 d1], w' as [h2 d2]. cbn [wr_hdr wr_data] in *. congruence.
Qed.

Section Archive.
Variables (s : fs) (its : list part).
Hypothesis EN : entire C L s.
Hypothesis ON : once C L s.
Hypothesis IO : in_order C L s.
Hypothesis MN : meta_named C L ign s.
Hypothesis SZ : N.of_nat (List.length (f_idx s)) < 2 ^ 31 - 2.
Hypothesis PM : Permutation (map p_ent its) (f_idx s).
Hypothesis IA : Forall (fun p => in_archive C L s (p_silo p) (p_off p) (p_rec p) (p_ent p)) its.
Definition before (p q : part) : Prop := p_silo p < p_silo q \/ p_silo p = p_silo q /\ p_off p < p_off q.
Hypothesis ST : StronglySorted before its.

Lemma its_arch i : In i its -> in_archive C L s (p_silo i) (p_off i) (p_rec i) (p_ent i).
Proof. intros H. rewrite Forall_forall in IA. auto. Qed.

Lemma its_is p : in_archive C L s (p_silo p) (p_off p) (p_rec p) (p_ent p) -> In p its.
Proof.
  intros A. pose proof A as (A1 & A2 & _). apply (Permutation_in _ (Permutation_sym PM)) in A1. apply in_map_iff in A1. destruct A1 as (i & E & Hi).
  pose proof (its_arch i Hi) as B. rewrite E in B. pose proof (same_rec _ _ _ _ _ _ _ _ A B) as R. destruct B as (_ & (B1 & B2 & _) & _), A2 as (C1 & C2 & _).
  replace p with i; auto. destruct i, p. cbn in *. congruence.
Qed.

Lemma its_sorted i : In i its -> hsorted (h_fields (wr_hdr (p_rec i))).
Proof. intros H. eapply sorted_in; [exact CO|]. apply its_arch. exact H. Qed.

Lemma its_record i : In i its -> exists r, record C L r (p_rec i).
Proof. intros H. destruct (its_arch i H) as (_ & _ & b & wr & a & r & z & _ & _ & _ & R). eauto. Qed.

(* segment number j + 1 *)
Definition posn (i : part) (typ id data : bytes) (ps : list part) (j : nat) : Prop :=
  len id = c_idsize C /\ stored_as C L s typ id data ps /\ chain C L s id data 1 ps /\ (2 <= List.length ps)%nat /\ N.of_nat (List.length ps) < 2 ^ 31 - 2 /\ nth_error ps j = Some i.

Lemma posn_seg i typ id data ps j : posn i typ id data ps j -> In i its /\ segment_of C (p_rec i) id (1 + N.of_nat j) /\
  hget (wr_hdr (p_rec i)) "WARC-Segment-Number" = Some (dec (1 + N.of_nat j)).
Proof. intros (_ & _ & CH & _ & _ & E). destruct (chain_pos C L CO s _ _ _ _ _ CH E) as (A & B & D). split; [apply its_is; auto|]. auto. Qed.

Lemma posn_no i typ id data ps j : posn i typ id data ps j -> seg_no (p_rec i) = Some (Z.of_N (1 + N.of_nat j)).
Proof.
  intros P. destruct (posn_seg _ _ _ _ _ _ P) as (_ & _ & E). destruct P as (_ & _ & _ & _ & B & N1). unfold seg_no. rewrite E. cbn [option_map]. f_equal. apply num_dec.
  assert ((j < List.length ps)%nat) by (apply nth_error_Some; congruence). lia.
Qed.

Lemma len_bound id data ps : chain C L s id data 1 ps -> N.of_nat (List.length ps) < 2 ^ 31 - 2.
Proof.
  intros CH. assert ((List.length ps <= List.length (f_idx s))%nat); [|lia].
  rewrite <- (map_length p_ent ps). apply NoDup_incl_length.
  - apply NoDup_nth_error. intros i j Hi E. rewrite map_length in Hi. rewrite !nth_error_map in E.
    destruct (nth_error ps i) as [a|] eqn:Ei; [|apply nth_error_None in Ei; lia]. cbn [option_map] in E.
    destruct (nth_error ps j) as [b|] eqn:Ej; [|discriminate E]. cbn [option_map] in E. injection E as E.
    destruct (chain_pos C L CO s _ _ _ _ _ CH Ei) as (A1 & _ & A2). destruct (chain_pos C L CO s _ _ _ _ _ CH Ej) as (B1 & _ & B2).
    rewrite E in A1. pose proof (same_hdr C L CO _ _ _ _ _ _ _ _ A1 B1) as EH. rewrite EH, B2 in A2. injection A2 as A2. apply dec_inj in A2. lia.
  - intros e He. apply in_map_iff in He. destruct He as (p & <- & Hp). apply In_nth_error in Hp. destruct Hp as (j & Hp).
    destruct (chain_pos C L CO s _ _ _ _ _ CH Hp) as ((A1 & _) & _). exact A1.
Qed.

Lemma posn_find i v : In i its -> hget (wr_hdr (p_rec i)) "WARC-Segment-Number" = Some v -> exists typ id data ps j, posn i typ id data ps j.
Proof.
  intros Hi E. pose proof (its_arch i Hi) as A. apply has_get in E; [|apply its_sorted; auto].
  destruct (EN _ _ _ _ _ A E) as (typ & id & data & ps & p & L1 & SA & L2 & Hp & E1 & E2). 
  assert (CH : chain C L s id data 1 ps). { destruct SA as (_ & SA). destruct ps as [|p1 [|p2 r]]; [destruct SA|cbn in L2; lia|apply SA]. }
  apply In_nth_error in Hp. destruct Hp as (j & Hj). exists typ, id, data, ps, j. split; [auto|]. split; [auto|]. split; [auto|]. split; [auto|].
  split; [eapply len_bound; eauto|]. destruct (chain_pos C L CO s _ _ _ _ _ CH Hj) as (P1 & _). pose proof (its_is p P1) as Ip. rewrite Hj. f_equal.
  assert (X : forall l, StronglySorted before l -> forall a b, In a l -> In b l -> p_silo a = p_silo b -> p_off a = p_off b -> a = b).
  { clear. induction l as [|y l IH]; intros S a b Ha Hb Ea Eb; [destruct Ha|]. inversion S as [|? ? S1 S2]; subst. rewrite Forall_forall in S2.
    destruct Ha as [->|Ha], Hb as [->|Hb]; auto; [specialize (S2 _ Hb)|specialize (S2 _ Ha)]; unfold before in S2; lia. }
  apply (X its ST); auto.
Qed.

Lemma posn_oid i typ id data ps j : posn i typ id data ps j -> oid (p_rec i) = id /\ first (p_rec i) = (j =? 0)%nat.
Proof.
  intros P. pose proof (posn_no _ _ _ _ _ _ P) as NO. destruct (posn_seg _ _ _ _ _ _ P) as (Hi & (_ & SO) & _). destruct P as (L1 & _ & _ & _ & B & N1).
  assert (FI : first (p_rec i) = (j =? 0)%nat) by (unfold first; rewrite NO; destruct (j =? 0)%nat eqn:Q; lia).
  split; [|auto]. unfold oid. rewrite FI. destruct (j =? 0)%nat eqn:Q.
  - replace (1 + N.of_nat j =? 1) with true in SO by lia. auto.
  - replace (1 + N.of_nat j =? 1) with false in SO by lia. apply has_get in SO; [|apply its_sorted; auto]. rewrite SO.
    change (tl (str "<" ++ prefix ++ id ++ str ">")) with (prefix ++ id ++ str ">"). rewrite skipn_app, Nat.sub_diag, skipn_all. cbn [skipn app].
    rewrite <- L1. unfold len. rewrite Nat2N.id, firstn_app, Nat.sub_diag, firstn_all. cbn [firstn]. apply app_nil_r.
Qed.

Lemma posn_ok i typ id data ps j : posn i typ id data ps j -> seg_ok (p_rec i).
Proof.
  intros P. destruct (posn_oid _ _ _ _ _ _ P) as (O & _). pose proof (posn_no _ _ _ _ _ _ P) as NO. destruct (posn_seg _ _ _ _ _ _ P) as (Hi & (_ & SO) & _).
  destruct P as (L1 & _ & _ & _ & B & N1). assert ((j < List.length ps)%nat) by (apply nth_error_Some; congruence).
  exists id, (1 + N.of_nat j). split; [auto|]. split; [lia|]. split; [auto|]. split; [auto|].
  destruct (1 + N.of_nat j =? 1); [auto|]. apply has_get; auto. apply its_sorted. auto.
Qed.

(* whoever is at that position *)
Lemma posn_same i i' typ id data ps typ' data' ps' j : posn i typ id data ps j -> posn i' typ' id data' ps' j -> i = i'.
Proof.
  intros P P'. destruct (posn_seg _ _ _ _ _ _ P) as (Hi & SO & _). destruct (posn_seg _ _ _ _ _ _ P') as (Hi' & SO' & _).
  destruct (ON _ _ _ _ _ _ _ _ _ _ (its_arch i Hi) (its_arch i' Hi') SO SO') as (E1 & E2).
  clear - E1 E2 ST Hi Hi'. revert ST Hi Hi'. induction its as [|y l IH]; intros S Ha Hb; [destruct Ha|]. inversion S as [|? ? S1 S2]; subst. rewrite Forall_forall in S2.
  destruct Ha as [->|Ha], Hb as [->|Hb]; auto; [specialize (S2 _ Hb)|specialize (S2 _ Ha)]; unfold before in S2; lia.
Qed.

Lemma posn_at i typ id data ps j j' i' : posn i typ id data ps j -> nth_error ps j' = Some i' -> posn i' typ id data ps j'.
Proof. intros (A1 & A2 & A3 & A4 & A5 & _) E. split; [auto|]. split; [auto|]. split; [auto|]. split; [auto|]. split; auto. Qed.

(* all of the object is in the chain *)
Lemma posn_in i typ id data ps j i' typ' data' ps' j' : posn i typ id data ps j -> posn i' typ' id data' ps' j' -> nth_error ps j' = Some i'.
Proof.
  intros P P'. destruct (Nat.lt_ge_cases j' (List.length ps)) as [X|X].
  - destruct (nth_error ps j') as [q|] eqn:E; [|apply nth_error_None in E; lia]. f_equal. eapply posn_same; [|exact P']. eapply posn_at; [exact P|exact E].
  - exfalso. assert (L2 : (2 <= List.length ps)%nat) by apply P. assert (LP : (j' < List.length ps')%nat) by (apply nth_error_Some; destruct P' as (_ & _ & _ & _ & _ & E); congruence).
    destruct (nth_error ps (pred (List.length ps))) as [q|] eqn:E; [|apply nth_error_None in E; lia].
    destruct (nth_error ps' (pred (List.length ps))) as [q'|] eqn:E'; [|apply nth_error_None in E'; lia].
    assert (q = q') by (eapply posn_same; [eapply posn_at; [exact P|exact E]|eapply posn_at; [exact P'|exact E']]). subst q'.
    destruct P as (_ & _ & CH & _), P' as (_ & _ & CH' & _).
    pose proof (chain_last C L s _ _ _ _ _ _ CH E) as X1. pose proof (chain_last C L s _ _ _ _ _ _ CH' E') as X2.
    replace (S (pred (List.length ps)) =? List.length ps)%nat with true in X1 by lia.
    replace (S (pred (List.length ps)) =? List.length ps')%nat with false in X2 by lia.
    destruct X1 as (f & Hf & N1 & _), X2 as (X2 & _). apply (X2 f Hf). auto.
Qed.

Lemma fine_all : Forall (fun p => fine (p_rec p)) its.
Proof.
  apply Forall_forall. intros i Hi. pose proof (its_sorted i Hi) as S. pose proof (its_arch i Hi) as A. destruct (its_record i Hi) as (r & H & B & _ & D & (N1 & K & _) & _).
  apply fine_ok; auto.
  - destruct (hget (wr_hdr (p_rec i)) "WARC-Segment-Number") as [v|] eqn:E; [right|left; apply hasnt_get; auto].
    destruct (posn_find i v Hi E) as (typ & id & data & ps & j & P). destruct (posn_seg _ _ _ _ _ _ P) as (_ & (X & _) & _).
    exists (1 + N.of_nat j). split; [auto|]. destruct P as (_ & _ & _ & _ & LB & E2). assert ((j < List.length ps)%nat) by (apply nth_error_Some; congruence). lia.
  - destruct K as [([T|(T & _)] & _)|[(T & _)|(T & _)]]; eauto.
  - destruct K as [(T & SN)|[(T & _ & ID)|(T & _ & ID)]].
    + destruct SN as [SN|SN]; [|auto]. destruct T as [T|(T & _)].
      * destruct (N1 T) as (x & E & [(_ & _ & ->)|(X & _)]); [|auto]. right. right. left. split; auto.
      * destruct (MN _ _ _ _ A T) as (M & _). destruct (M SN) as [->|M']; [right; left; auto|right; right; auto].
    + right. right. left. split; auto.
    + right. right. left. split; auto.
Qed.

Lemma sorted_nth {A} (f : A -> N) : forall l c, (forall j q, nth_error l j = Some q -> f q = c + N.of_nat j) -> StronglySorted (fun x y => f x < f y) l.
Proof.
  induction l as [|x l IH]; intros c H; [constructor|]. constructor.
  - apply (IH (c + 1)). intros j q E. rewrite (H (S j) q E). lia.
  - apply Forall_forall. intros y Y. apply In_nth_error in Y. destruct Y as (j & Y). rewrite (H 0%nat x eq_refl), (H (S j) y Y). lia.
Qed.

Lemma consec_of : forall F rest k, map arec F = map p_rec rest -> Forall of_seg F ->
  (forall j q, nth_error rest j = Some q -> seg_no (p_rec q) = Some (k + Z.of_nat j)%Z) -> consec k F.
Proof.
  induction F as [|a F IH]; intros rest k M OS H; [exact I|]. destruct rest as [|q rest]; [discriminate M|]. cbn [map] in M. injection M as M1 M2.
  inversion OS as [|? ? O1 O2]; subst. cbn [consec]. split.
  - specialize (H 0%nat q eq_refl). unfold of_seg in O1. rewrite M1, H in O1. injection O1 as O1. lia.
  - apply (IH rest); auto. intros j q' E. rewrite (H (S j) q' E). f_equal. lia.
Qed.

Lemma map_snoc {A B D} (f : A -> B) (g : D -> B) l ys x : map f l = map g (ys ++ [x]) -> exists ys' x', l = ys' ++ [x'] /\ map f ys' = map g ys /\ f x' = g x.
Proof.
  rewrite map_app. cbn [map]. intros E. destruct l as [|a l] using rev_ind; [destruct ys; discriminate E|]. rewrite map_app in E. cbn [map] in E.
  apply app_inj_tail in E. destruct E as (E1 & E2). exists l, a. auto.
Qed.

(* the segments of one object *)
Lemma of_object i typ id data p1 rest j : posn i typ id data (p1 :: rest) j ->
  filter (fun q => segb (p_rec q) && (isid id (p_rec q) && first (p_rec q))) its = [p1] /\
  filter (fun q => segb (p_rec q) && (isid id (p_rec q) && negb (first (p_rec q)))) its = rest.
Proof.
  intros P.
  assert (PP : forall q, In q its -> segb (p_rec q) = true -> isid id (p_rec q) = true -> exists typ' data' ps' j', posn q typ' id data' ps' j' /\ nth_error (p1 :: rest) j' = Some q /\ first (p_rec q) = (j' =? 0)%nat).
  { intros q Hq SB IS. unfold segb in SB. destruct (hget (wr_hdr (p_rec q)) "WARC-Segment-Number") as [v|] eqn:E; [|discriminate SB].
    destruct (posn_find q v Hq E) as (t' & id' & d' & ps' & j' & P'). destruct (posn_oid _ _ _ _ _ _ P') as (O & FI). unfold isid in IS. apply bytes_eqb_true in IS.
    assert (E0 : id' = id) by congruence. rewrite E0 in P'. exists t', d', ps', j'. split; [auto|]. split; [eapply posn_in; eauto|auto]. }
  assert (QQ : forall j' q, nth_error (p1 :: rest) j' = Some q -> posn q typ id data (p1 :: rest) j' /\ In q its /\ segb (p_rec q) = true /\ isid id (p_rec q) = true /\ first (p_rec q) = (j' =? 0)%nat).
  { intros j' q E. pose proof (posn_at _ _ _ _ _ _ _ _ P E) as P'. destruct (posn_seg _ _ _ _ _ _ P') as (Hq & _ & SN). destruct (posn_oid _ _ _ _ _ _ P') as (O & FI).
    split; [auto|]. split; [auto|]. split; [unfold segb; rewrite SN; auto|]. split; [unfold isid; rewrite O; apply bytes_eqb_refl|auto]. }
  split.
  - set (f := fun q => _). pose proof (sorted_filter before f its ST) as S.
    assert (M : forall q, In q (filter f its) -> q = p1).
    { intros q Hq. apply filter_In in Hq. destruct Hq as (Hq & X). unfold f in X. apply andb_prop in X. destruct X as (X1 & X). apply andb_prop in X. destruct X as (X2 & X3).
      destruct (PP q Hq X1 X2) as (t' & d' & ps' & j' & _ & N1 & FI). rewrite X3 in FI. destruct j'; [|discriminate FI]. cbn in N1. congruence. }
    assert (I1 : In p1 (filter f its)).
    { destruct (QQ 0%nat p1 eq_refl) as (_ & H1 & H2 & H3 & H4). apply filter_In. split; auto. unfold f. rewrite H2, H3, H4. reflexivity. }
    destruct (filter f its) as [|a [|b l]]; [destruct I1|f_equal; apply M; left; auto|]. exfalso.
    assert (a = p1) by (apply M; left; auto). assert (b = p1) by (apply M; right; left; auto). subst a b. inversion S as [|? ? _ S2]; subst. inversion S2 as [|? ? S3 _]; subst. unfold before in S3. lia.
  - set (f := fun q => _). set (key := fun q => match seg_no (p_rec q) with Some z => Z.to_N z | None => 0 end).
    apply (sorted_same key).
    + apply sorted_impl with (R := before); [|apply sorted_filter; exact ST]. intros x y Hx Hy BF. apply filter_In in Hx, Hy. destruct Hx as (Hx & X), Hy as (Hy & Y). unfold f in X, Y.
      apply andb_prop in X. destruct X as (X1 & X). apply andb_prop in X. destruct X as (X2 & X3). apply andb_prop in Y. destruct Y as (Y1 & Y). apply andb_prop in Y. destruct Y as (Y2 & Y3).
      destruct (PP x Hx X1 X2) as (t1 & d1 & ps1 & j1 & P1 & M1 & G1). destruct (PP y Hy Y1 Y2) as (t2 & d2 & ps2 & j2 & P2 & M2 & G2).
      unfold key. rewrite (posn_no _ _ _ _ _ _ P1), (posn_no _ _ _ _ _ _ P2). destruct (Nat.lt_trichotomy j1 j2) as [LT|[->|LT]]; [lia| |].
      * exfalso. assert (x = y) by congruence. subst y. unfold before in BF. lia.
      * exfalso. destruct (posn_seg _ _ _ _ _ _ P1) as (_ & S1 & _). destruct (posn_seg _ _ _ _ _ _ P2) as (_ & S2 & _).
        rewrite G1 in X3. rewrite G2 in Y3. destruct j1, j2; try discriminate X3; try discriminate Y3.
        pose proof (IO _ _ _ _ _ _ _ _ _ _ _ (its_arch y Hy) (its_arch x Hx) S2 S1) as Z. unfold before in BF. lia.
    + apply (sorted_nth key) with (c := 2). intros j' q E. destruct (QQ (S j') q E) as (P' & _). unfold key. rewrite (posn_no _ _ _ _ _ _ P'). lia.
    + intros q. rewrite filter_In. split.
      * intros (Hq & X). unfold f in X. apply andb_prop in X. destruct X as (X1 & X). apply andb_prop in X. destruct X as (X2 & X3).
        destruct (PP q Hq X1 X2) as (t1 & d1 & ps1 & j1 & _ & M1 & G1). rewrite G1 in X3. destruct j1; [discriminate X3|]. cbn [nth_error] in M1. apply nth_error_In in M1. auto.
      * intros Hq. apply In_nth_error in Hq. destruct Hq as (j' & E). destruct (QQ (S j') q E) as (_ & H1 & H2 & H3 & H4). split; auto. unfold f. rewrite H2, H3, H4. reflexivity.
Qed.

Variable segs : list aud.
Hypothesis SM : map arec segs = filter segb (map p_rec its).
Hypothesis SO : Forall of_seg segs.

Lemma segs_part a : In a segs -> exists i typ id data ps j, In i its /\ p_rec i = arec a /\ posn i typ id data ps j.
Proof.
  intros Ha. assert (X : In (arec a) (map arec segs)) by (apply in_map; auto). rewrite SM in X. apply filter_In in X. destruct X as (X & B). apply in_map_iff in X. destruct X as (i & E & Hi).
  unfold segb in B. rewrite <- E in B. destruct (hget (wr_hdr (p_rec i)) "WARC-Segment-Number") as [v|] eqn:V; [|discriminate B].
  destruct (posn_find i v Hi V) as (typ & id & data & ps & j & P). exists i, typ, id, data, ps, j. auto.
Qed.

Lemma segs_ok : Forall (fun a => seg_ok (arec a)) segs.
Proof. apply Forall_forall. intros a Ha. destruct (segs_part a Ha) as (i & typ & id & data & ps & j & _ & <- & P). eapply posn_ok; eauto. Qed.

Lemma segs_filter g : map arec (filter (fun a => g (arec a)) segs) = map p_rec (filter (fun q => segb (p_rec q) && g (p_rec q)) its).
Proof. rewrite <- filter_map, SM, filter_map, filter_map, filter_filter. reflexivity. Qed.

Lemma segs_objects : objects segs.
Proof.
  intros a Ha. destruct (segs_part a Ha) as (i & typ & id & data & ps & j & Hi & <- & P). destruct (posn_oid _ _ _ _ _ _ P) as (-> & _).
  pose proof P as (LI & SA & CH & L2 & LB & NJ). destruct ps as [|p1 [|p2 r]]; [destruct CH|cbn in L2; lia|]. destruct (of_object _ _ _ _ _ _ _ P) as (F1 & F2).
  destruct (@exists_last _ (p2 :: r)) as (ys' & x' & EL); [discriminate|]. rewrite EL in *.
  pose proof (segs_filter (fun w => isid id w && first w)) as G1. cbn beta in G1. rewrite F1 in G1. destruct (filter _ segs) as [|f [|f2 fl]] eqn:Ef; try discriminate G1. cbn [map] in G1.
  assert (E1 : arec f = p_rec p1) by congruence. clear G1.
  pose proof (segs_filter (fun w => isid id w && negb (first w))) as G2. cbn beta in G2. rewrite F2 in G2. destruct (map_snoc _ _ _ _ _ G2) as (ys & x & E2 & E3 & E4).
  exists f, ys, x. split; [auto|]. split; [auto|].
  assert (PO : forall j' q, nth_error (ys' ++ [x']) j' = Some q -> posn q typ id data (p1 :: ys' ++ [x']) (S j')) by (intros j' q E; eapply posn_at; [exact P|exact E]).
  assert (OS : Forall of_seg (ys ++ [x])). { rewrite <- E2. apply Forall_forall. intros z Z. apply filter_In in Z. rewrite Forall_forall in SO. apply SO, Z. }
  split. { apply (consec_of _ (ys' ++ [x'])); [rewrite <- E2; exact G2|exact OS|]. intros j' q E. rewrite (posn_no _ _ _ _ _ _ (PO j' q E)). f_equal. lia. }
  split.
  { apply Forall_forall. intros y Hy. assert (X : In (arec y) (map p_rec ys')) by (rewrite <- E3; apply in_map; auto). apply in_map_iff in X. destruct X as (q & Eq & Hq).
    apply In_nth_error in Hq. destruct Hq as (j' & Hj). assert (LJ : (j' < List.length ys')%nat) by (apply nth_error_Some; congruence).
    assert (NQ : nth_error (ys' ++ [x']) j' = Some q) by (rewrite nth_error_app1; auto). pose proof (chain_last C L s _ _ _ _ (S j') q CH NQ) as CL.
    cbn [List.length] in CL. rewrite app_length in CL. cbn [List.length] in CL. replace (S (S j') =? S (List.length ys' + 1))%nat with false in CL by lia.
    unfold unlast. change (a_hdr y) with (wr_hdr (arec y)). rewrite <- Eq. apply CL. }
  assert (NX : nth_error (ys' ++ [x']) (List.length ys') = Some x') by (rewrite nth_error_app2, Nat.sub_diag by lia; auto).
  pose proof (chain_last C L s _ _ _ _ (S (List.length ys')) x' CH NX) as TL. cbn [List.length] in TL. rewrite app_length in TL. cbn [List.length] in TL.
  replace (S (S (List.length ys')) =? S (List.length ys' + 1))%nat with true in TL by lia.
  destruct (posn_seg _ _ _ _ _ _ (PO _ _ NX)) as (Ix & _). pose proof (its_sorted _ Ix) as Sx. rewrite <- E4 in TL, Sx. cbn [arec wr_hdr] in TL, Sx.
  split. { apply has_get in TL; auto. rewrite TL. discriminate. }
  assert (P1 : posn p1 typ id data (p1 :: ys' ++ [x']) 0) by (eapply posn_at; [exact P|reflexivity]).
  destruct (posn_seg _ _ _ _ _ _ P1) as (I1 & (NO1 & _) & _). pose proof (its_sorted _ I1) as S1. pose proof (its_arch _ I1) as A1.
  assert (DD : a_data f ++ List.concat (map a_data (ys ++ [x])) = data).
  { destruct SA as ((SA & _) & _). rewrite <- SA. cbn [map List.concat]. rewrite <- E1. f_equal. f_equal. rewrite <- (map_map p_rec wr_data), <- G2, E2, map_map. reflexivity. }
  rewrite DD. unfold audit_final. change (a_hdr f) with (wr_hdr (arec f)). rewrite E1. apply (check_header_iff _ _ _ Sx) in TL. rewrite TL.
  pose proof (chain_parts C L _ _ _ _ _ CH 0%nat p1 eq_refl) as (_ & _ & PK). change (1 + N.of_nat 0 =? 1) with true in PK. cbv iota in PK. destruct PK as (_ & PD).
  rewrite (digest_good _ _ _ S1 PD). cbn [bind]. rewrite id_good; [reflexivity|auto|].
  destruct (its_record _ I1) as (rr & H & B & _ & _ & (N1 & K & _) & _). destruct K as [(T & SN)|[(_ & SN & _)|(_ & (k & K1 & SN) & _)]].
  - destruct T as [T|(T & _)].
    + destruct (N1 T) as (x0 & E & [(X & _)|(_ & X)]).
      * exfalso. apply hasnt_get in X. apply has_get in NO1; auto. congruence.
      * apply has_get in X; auto. apply has_get in PD; auto. rewrite PD in X. apply (f_equal (option_map (skipn 7))) in X. cbn [option_map] in X.
        change (skipn 7 (str "sha256:" ++ z_sha L data)) with (z_sha L data) in X. change (skipn 7 (str "sha256:" ++ x0)) with x0 in X. injection X as X. subst x0. left. split; auto.
    + destruct (MN _ _ _ _ A1 T) as (_ & M). apply M. auto.
  - exfalso. apply hasnt_get in SN. apply has_get in NO1; auto. congruence.
  - exfalso. apply has_get in SN; auto. apply has_get in NO1; auto. rewrite SN in NO1. injection NO1 as X. apply dec_inj in X. lia.
Qed.
End Archive.

(** * The whole command *)

Lemma lay_sorted o b l : layout C L o b l -> StronglySorted (fun x y => fst x < fst y) l.
Proof.
  induction 1 as [o|o r w s l R LY IH]; [constructor|]. constructor; auto. destruct (lay_off C L _ _ _ LY) as (_ & F).
  assert (24 <= len r). { destruct R as (H & B & -> & _). rewrite !len_app. change (len crnlcrnl) with 24. lia. }
  eapply Forall_impl; [|exact F]. cbn beta. intros x. cbn [fst]. lia.
Qed.

Lemma parts_of s : inv C L s -> forall l, (forall n b, In (n, b) l -> f_hold s n = None /\ exists w, f_silo s n = Some (b, w)) ->
  exists pss, Forall2 (listed C L) l pss /\ Forall2 (fun x ps => Permutation (map p_ent ps) (entries s (fst x))) l pss /\
  Forall (fun p => in_archive C L s (p_silo p) (p_off p) (p_rec p) (p_ent p)) (List.concat pss).
Proof.
  intros IV. induction l as [|(n, b) l IH]; intros H; [exists []; split; [constructor|]; split; constructor|].
  destruct IH as (pss & A & B & D); [intros n' b' X; apply H; right; auto|]. destruct (H n b (or_introl eq_refl)) as (QU & w & F).
  destruct (silo_parts C L s n b w IV QU F) as (ps & E1 & E2 & E3). exists (ps :: pss). split; [constructor; auto|]. split; [constructor; auto|].
  cbn [List.concat]. apply Forall_app. auto.
Qed.

Lemma all_sorted : forall l pss, Forall2 (listed C L) l pss -> StronglySorted (fun x y => fst x < fst y) l -> StronglySorted before (List.concat pss).
Proof.
  induction 1 as [|(n, b) ps l pss (LY & SN) F IH]; intros S; [constructor|]. inversion S as [|? ? S1 S2]; subst. cbn [List.concat fst snd] in *. apply sorted_app; auto.
  - apply lay_sorted in LY. rewrite Forall_forall in SN. clear - LY SN. induction ps as [|p ps IH]; [constructor|]. cbn [map] in LY. inversion LY as [|? ? X Y]; subst. constructor.
    + apply IH; auto. intros x Hx. apply SN. right. auto.
    + apply Forall_forall. intros q Hq. rewrite Forall_forall in Y. specialize (Y (p_off q, p_rec q)). cbn [fst] in Y. right.
      split; [rewrite (SN p), (SN q); [auto|right; auto|left; auto]|]. apply Y. apply in_map_iff. exists q. auto.
  - intros x y Hx Hy. left. rewrite Forall_forall in SN. rewrite (SN x Hx). rewrite Forall_forall in S2. apply in_concat in Hy. destruct Hy as (qs & Hqs & Hy).
    clear - F S2 Hqs Hy. induction F as [|z qs' l pss (_ & SN) F IH]; [destruct Hqs|]. destruct Hqs as [->|Hqs].
    + rewrite Forall_forall in SN. rewrite (SN y Hy). apply (S2 z). left. auto.
    + apply IH; auto. intros z' Z. apply S2. right. auto.
Qed.

Lemma opened_found s : forall fuel i files, opened fuel s i = Ok files -> exists m, let k := i + N.of_nat m in
  (forall n, i <= n < k -> f_silo s n <> None) /\ f_silo s k = None /\
  files = map (fun n => (Z.of_N n, content s n)) (map N.of_nat (seq (N.to_nat i) m)).
Proof.
  induction fuel as [|fuel IH]; intros i files E; [discriminate E|]. cbn [opened] in E. destruct (f_silo s i) as [[b w]|] eqn:F.
  - destruct (opened fuel s (i + 1)) as [r| | |] eqn:Q; cbn [bind] in E; try discriminate E. injection E as <-. destruct (IH _ _ Q) as (m & M1 & M2 & M3).
    exists (S m). cbn zeta in *. split; [|split].
    + intros n LT. destruct (N.eq_dec n i) as [->|]; [congruence|]. apply M1. lia.
    + replace (i + N.of_nat (S m)) with (i + 1 + N.of_nat m) by lia. auto.
    + rewrite M3. cbn [seq map]. rewrite N2Nat.id. unfold content at 2. rewrite F. replace (N.to_nat (i + 1)) with (S (N.to_nat i)) by lia. reflexivity.
  - injection E as <-. exists O. cbn zeta. rewrite N.add_0_r. split; [lia|]. split; auto.
Qed.

Lemma archive_found fuel s out : (forall n b w, f_silo s n = Some (b, w) -> is_bytes b) -> audit_archive C L ign fuel s = Ok out -> exists k vs groups rest plain tl,
  (forall n, n < k -> f_silo s n <> None) /\ f_silo s k = None /\
  out = flat_map v_out vs ++ flat_map snd groups ++ tl /\
  map (fun v => (v_no v, v_file v)) vs = map (fun n => (Z.of_N n, content s n)) (upto k) /\ Forall (told_silo C L ign) vs /\
  parted (map snd (flat_map v_recs vs)) (flat_map fst groups ++ rest) plain /\
  Forall (fun g => told C L (fst g) (snd g)) groups /\ (rest = [] -> tl = []) /\ (rest <> [] -> exists x, In x tl /\ complaint x).
Proof.
  intros BY. unfold audit_archive. destruct (opened fuel s 0) as [files| | |] eqn:O; cbn [bind]; try discriminate. intros E.
  destruct (opened_found s _ _ _ O) as (m & M1 & M2 & M3). cbn zeta in *.
  assert (M3' : files = map (fun n => (Z.of_N n, content s n)) (upto (N.of_nat m))) by (rewrite M3; unfold upto; rewrite Nat2N.id; reflexivity).
  assert (BF : Forall (fun f => is_bytes (snd f)) files).
  { rewrite M3. apply Forall_map, Forall_forall. intros n _. cbn [snd]. unfold content. destruct (f_silo s n) as [[b w]|] eqn:F; [eauto|constructor]. }
  destruct (report_found C L ign _ _ _ BF E) as (vs & gs & rest & plain & tl & R). exists (N.of_nat m), vs, gs, rest, plain, tl.
  split; [intros n LT; apply M1; lia|]. split; [rewrite N.add_0_l in M2; exact M2|]. rewrite <- M3'. exact R.
Qed.

Lemma opened_gapless s k : gapless s k -> forall m i fuel, (m < fuel)%nat -> i + N.of_nat m = k ->
  opened fuel s i = Ok (map (fun x => (Z.of_N (fst x), snd x)) (map (fun n => (n, content s n)) (map N.of_nat (seq (N.to_nat i) m)))).
Proof.
  intros G. induction m as [|m IH]; intros i fuel LT E; (destruct fuel as [|fuel]; [lia|]); cbn [opened].
  - destruct (f_silo s i) eqn:F; [|reflexivity]. exfalso. assert (i < k) by (apply G; congruence). lia.
  - destruct (f_silo s i) as [[b w]|] eqn:F.
    + rewrite (IH (i + 1) fuel) by lia. cbn [bind seq map fst snd]. rewrite N2Nat.id. unfold content at 2. rewrite F. replace (N.to_nat (i + 1)) with (S (N.to_nat i)) by lia. reflexivity.
    + exfalso. assert (X : i < k) by lia. apply G in X. contradiction.
Qed.

Lemma upto_sorted : forall m i (f : N -> bytes), StronglySorted (fun x y => fst x < fst y) (map (fun n => (n, f n)) (map N.of_nat (seq i m))).
Proof.
  induction m as [|m IH]; intros i f; [constructor|]. cbn [seq map]. constructor; auto. apply Forall_forall. intros x X. apply in_map_iff in X. destruct X as (n & <- & X).
  apply in_map_iff in X. destruct X as (j & <- & X). apply in_seq in X. cbn [fst]. lia.
Qed.

Lemma in_upto k n : In n (upto k) <-> n < k.
Proof.
  unfold upto. rewrite in_map_iff. split.
  - intros (j & <- & X). apply in_seq in X. lia.
  - intros X. exists (N.to_nat n). split; [lia|]. apply in_seq. lia.
Qed.

Lemma nodup_upto k : NoDup (upto k).
Proof. unfold upto. apply FinFun.Injective_map_NoDup; [intros a b E; lia|apply seq_NoDup]. Qed.

Lemma fine_arch s k : inv C L s -> entire C L s -> once C L s -> meta_named C L ign s -> N.of_nat (List.length (f_idx s)) < 2 ^ 31 - 2 ->
  (forall n, n < k -> f_hold s n = None /\ f_silo s n <> None) -> (forall e, In e (f_idx s) -> e_silo e < k) ->
  exists its, Permutation (map p_ent its) (f_idx s) /\ Forall (fun p => in_archive C L s (p_silo p) (p_off p) (p_rec p) (p_ent p)) its /\ StronglySorted before its /\
    (forall n o w e, in_archive C L s n o w e -> In (mkPart n o w e) its /\ fine w).
Proof.
  intros IV EN ON MN SZ QU LT. set (l := map (fun n => (n, content s n)) (upto k)).
  assert (HL : forall n b, In (n, b) l -> f_hold s n = None /\ exists w, f_silo s n = Some (b, w)).
  { intros n b X. apply in_map_iff in X. destruct X as (m & E & X). injection E as -> <-. apply in_upto in X. apply QU in X. destruct X as (X & Y). split; [auto|].
    unfold content. destruct (f_silo s n) as [[b w]|]; [eauto|contradiction]. }
  destruct (parts_of s IV l HL) as (pss & P1 & P2 & IA). set (its := List.concat pss) in *. exists its.
  assert (ML : map fst l = upto k) by (unfold l; rewrite map_map; cbn [fst]; apply map_id).
  assert (PM : Permutation (map p_ent its) (f_idx s)).
  { transitivity (flat_map (fun n => entries s n) (map fst l)).
    - unfold its. clear - P2. induction P2 as [|x ps l pss X F IH]; [constructor|]. cbn [List.concat map flat_map]. rewrite map_app. apply Permutation_app; auto.
    - rewrite ML. apply by_silo; [apply nodup_upto|]. intros e He. apply in_upto. auto. }
  assert (ST : StronglySorted before its) by (unfold its; eapply all_sorted; [exact P1|apply upto_sorted]).
  split; [auto|]. split; [auto|]. split; [auto|]. intros n o w e A.
  assert (FA : Forall (fun p => fine (p_rec p)) its) by (eapply fine_all; eauto).
  assert (I : In (mkPart n o w e) its) by (eapply its_is; eauto). split; [auto|]. rewrite Forall_forall in FA. apply (FA _ I).
Qed.

(* the segments the audit collects *)
Lemma audit_segs s k : inv C L s -> (forall n, n < k -> f_hold s n = None /\ f_silo s n <> None) -> f_silo s k = None ->
  (forall n o w e, in_archive C L s n o w e -> fine w) ->
  exists its segs, StronglySorted before its /\ Forall (fun p => in_archive C L s (p_silo p) (p_off p) (p_rec p) (p_ent p)) its /\
    (forall e, In e (map p_ent its) <-> In e (f_idx s) /\ e_silo e < k) /\
    map arec segs = map p_rec (filter (fun p => segb (p_rec p)) its) /\ Forall of_seg segs /\
    exists ls, forall fuel, (N.to_nat k < fuel)%nat -> audit_archive C L ign fuel s = let* l := audit_pending C L fuel segs in Ok (ls ++ l).
Proof.
  intros IV QU NK FI. set (l := map (fun n => (n, content s n)) (upto k)).
  assert (HL : forall n b, In (n, b) l -> f_hold s n = None /\ exists w, f_silo s n = Some (b, w)).
  { intros n b X. apply in_map_iff in X. destruct X as (m & E & X). injection E as -> <-. apply in_upto in X. apply QU in X. destruct X as (X & Y). split; [auto|].
    unfold content. destruct (f_silo s n) as [[b w]|]; [eauto|contradiction]. }
  destruct (parts_of s IV l HL) as (pss & P1 & P2 & IA). set (its := List.concat pss) in *.
  assert (FA : Forall (fun p => fine (p_rec p)) its) by (rewrite Forall_forall in *; intros p Hp; eapply FI; apply IA; auto).
  destruct (silos_good l pss P1 FA) as (segs & S1 & S2 & S3). fold its in S2. exists its, segs.
  split; [unfold its; eapply all_sorted; [exact P1|apply upto_sorted]|]. split; [auto|]. split; [|split; [rewrite S2, filter_map; auto|split; [auto|]]].
  - assert (ML : map fst l = upto k) by (unfold l; rewrite map_map; cbn [fst]; apply map_id).
    assert (PM : Permutation (map p_ent its) (flat_map (fun n => entries s n) (upto k))).
    { rewrite <- ML. unfold its. clear - P2. induction P2 as [|x ps l pss X F IH]; [constructor|]. cbn [List.concat map flat_map]. rewrite map_app. apply Permutation_app; auto. }
    intros e. split.
    + intros X. apply (Permutation_in _ PM) in X. apply in_flat_map in X. destruct X as (n & X & Y). apply filter_In in Y. destruct Y as (Y & Z). apply in_upto in X. split; [auto|lia].
    + intros (X & Y). apply (Permutation_in _ (Permutation_sym PM)). apply in_flat_map. exists (e_silo e). split; [apply in_upto; auto|]. apply filter_In. split; [auto|apply N.eqb_refl].
  - eexists. intros fuel LF. unfold audit_archive.
    assert (OG : forall m i fuel, (m < fuel)%nat -> i + N.of_nat m = k ->
      opened fuel s i = Ok (map (fun x => (Z.of_N (fst x), snd x)) (map (fun n => (n, content s n)) (map N.of_nat (seq (N.to_nat i) m))))).
    { clear - QU NK. induction m as [|m IH]; intros i fuel LT E; (destruct fuel as [|fuel]; [lia|]); cbn [opened].
      - replace i with k by lia. rewrite NK. reflexivity.
      - destruct (f_silo s i) as [[b w]|] eqn:F.
        + rewrite (IH (i + 1) fuel) by lia. cbn [bind seq map fst snd]. rewrite N2Nat.id. unfold content at 2. rewrite F. replace (N.to_nat (i + 1)) with (S (N.to_nat i)) by lia. reflexivity.
        + exfalso. assert (X : i < k) by lia. apply QU in X. destruct X as (_ & X). contradiction. }
    rewrite (OG (N.to_nat k) 0 fuel) by lia.
    change (map (fun n => (n, content s n)) (map N.of_nat (seq (N.to_nat 0) (N.to_nat k)))) with l. cbn [bind]. unfold main_audit. rewrite S1. cbn [bind]. reflexivity.
Qed.

Lemma audit_segs_entire s k : inv C L s -> entire C L s -> once C L s -> meta_named C L ign s -> N.of_nat (List.length (f_idx s)) < 2 ^ 31 - 2 ->
  (forall n, n < k -> f_hold s n = None /\ f_silo s n <> None) -> f_silo s k = None -> (forall e, In e (f_idx s) -> e_silo e < k) ->
  exists its segs, StronglySorted before its /\ Forall (fun p => in_archive C L s (p_silo p) (p_off p) (p_rec p) (p_ent p)) its /\
    (forall e, In e (map p_ent its) <-> In e (f_idx s) /\ e_silo e < k) /\
    map arec segs = map p_rec (filter (fun p => segb (p_rec p)) its) /\ Forall of_seg segs /\ Forall (fun a => seg_ok (arec a)) segs /\
    exists ls, forall fuel, (N.to_nat k < fuel)%nat -> audit_archive C L ign fuel s = let* l := audit_pending C L fuel segs in Ok (ls ++ l).
Proof.
  intros IV EN ON MN SZ QU NK LT. destruct (fine_arch s k IV EN ON MN SZ QU LT) as (its0 & PM0 & IA0 & ST0 & FI).
  destruct (audit_segs s k IV QU NK) as (its & segs & A1 & A2 & A3 & A4 & A5 & A6); [intros n o w e A; apply (FI n o w e A)|].
  exists its, segs. split; [auto|]. split; [auto|]. split; [auto|]. split; [auto|]. split; [auto|]. split; [|auto].
  apply Forall_forall. intros a Ha. assert (X : In (arec a) (map arec segs)) by (apply in_map; auto). rewrite A4 in X. apply in_map_iff in X. destruct X as (p & E & Hp).
  apply filter_In in Hp. destruct Hp as (Hp & SB). rewrite <- E. rewrite Forall_forall in A2. specialize (A2 p Hp). destruct (FI _ _ _ _ A2) as (I0 & _).
  replace (mkPart (p_silo p) (p_off p) (p_rec p) (p_ent p)) with p in I0 by (destruct p; reflexivity).
  unfold segb in SB. destruct (hget (wr_hdr (p_rec p)) "WARC-Segment-Number") as [v|] eqn:V; [|discriminate SB].
  assert (Y : exists typ id data ps j, posn s p typ id data ps j) by (eapply posn_find with (its := its0); eauto). destruct Y as (typ & id & data & ps & j & P).
  eapply posn_ok with (its := its0); eauto.
Qed.

Theorem audit_clean s k : inv C L s -> (forall n, f_hold s n = None) -> entire C L s -> once C L s -> in_order C L s -> gapless s k -> meta_named C L ign s ->
  N.of_nat (List.length (f_idx s)) < 2 ^ 31 - 2 ->
  exists ids, NoDup ids /\ (forall id, In id ids <-> exists n o w e, in_archive C L s n o w e /\ segment_of C w id 1) /\
  exists m, forall fuel, (m <= fuel)%nat -> audit_archive C L ign fuel s =
    Ok (flat_map (fun n => [LSilo (Z.of_N n); LTotal (len (entries s n)) 0]) (upto k) ++ map LObject ids).
Proof.
  intros IV QU EN ON IO G MN SZ. set (l := map (fun n => (n, content s n)) (upto k)).
  assert (HL : forall n b, In (n, b) l -> f_hold s n = None /\ exists w, f_silo s n = Some (b, w)).
  { intros n b X. split; [auto|]. apply in_map_iff in X. destruct X as (m & E & X). injection E as -> <-. apply in_upto in X. apply G in X. unfold content. destruct (f_silo s n) as [[b w]|]; [eauto|contradiction]. }
  destruct (parts_of s IV l HL) as (pss & P1 & P2 & IA). set (its := List.concat pss) in *.
  assert (ML : map fst l = upto k) by (unfold l; rewrite map_map; cbn [fst]; apply map_id).
  assert (PM : Permutation (map p_ent its) (f_idx s)).
  { transitivity (flat_map (fun n => entries s n) (map fst l)).
    - unfold its. clear - P2. induction P2 as [|x ps l pss X F IH]; [constructor|]. cbn [List.concat map flat_map]. rewrite map_app. apply Permutation_app; auto.
    - rewrite ML. apply by_silo; [apply nodup_upto|]. intros e He. apply in_upto, G. intros F.
      assert (IE : In e (entries s (e_silo e))) by (apply filter_In; split; [auto|apply N.eqb_refl]).
      pose proof (quiet_settled C L s (e_silo e) IV (QU _)) as S. rewrite F in S. cbn [settled] in S. rewrite S in IE. destruct IE. }
  assert (ST : StronglySorted before its) by (unfold its; eapply all_sorted; [exact P1|apply upto_sorted]).
  assert (FA : Forall (fun p => fine (p_rec p)) its) by (eapply fine_all; eauto).
  destruct (silos_good l pss P1 FA) as (segs & S1 & S2 & S3). fold its in S2.
  assert (OB : objects segs) by (eapply segs_objects; eauto). assert (OK : Forall (fun a => seg_ok (arec a)) segs) by (eapply segs_ok; eauto).
  assert (FI : forall i, In i its -> (exists id, segment_of C (p_rec i) id 1) <-> segb (p_rec i) = true /\ first (p_rec i) = true).
  { intros i Hi. assert (SI : hsorted (h_fields (wr_hdr (p_rec i)))) by (eapply its_sorted; eauto). split.
    - intros (id & X & _). apply has_get in X; auto. unfold segb, first, seg_no. rewrite X. cbn [option_map]. rewrite num_dec by lia. auto.
    - intros (B & F). unfold segb in B. destruct (hget (wr_hdr (p_rec i)) "WARC-Segment-Number") as [v|] eqn:V; [|discriminate B].
      assert (X : exists typ id data ps j, posn s i typ id data ps j) by (eapply posn_find; eauto). destruct X as (typ & id & data & ps & j & P).
      assert (Y : oid (p_rec i) = id /\ first (p_rec i) = (j =? 0)%nat) by (eapply posn_oid; eauto). destruct Y as (_ & Y). rewrite F in Y. destruct j; [|discriminate Y].
      exists id. assert (Z : In i its /\ segment_of C (p_rec i) id (1 + N.of_nat 0) /\ hget (wr_hdr (p_rec i)) "WARC-Segment-Number" = Some (dec (1 + N.of_nat 0))) by (eapply posn_seg; eauto). apply Z. }
  set (fs1 := filter (fun i => segb (p_rec i) && first (p_rec i)) its).
  assert (EF : filter first (map arec segs) = map p_rec fs1) by (rewrite S2, filter_map, filter_map, filter_filter; reflexivity).
  exists (map (fun i => h_id (wr_hdr (p_rec i))) fs1).
  assert (IF : forall i, In i fs1 <-> In i its /\ segment_of C (p_rec i) (h_id (wr_hdr (p_rec i))) 1).
  { intros i. unfold fs1. rewrite filter_In. split; intros (X & Y); split; auto.
    - apply andb_prop in Y. apply FI in Y; auto. destruct Y as (id & Y1 & Y2). split; [auto|reflexivity].
    - assert (Z : segb (p_rec i) = true /\ first (p_rec i) = true) by (apply FI; eauto). destruct Z as (-> & ->). reflexivity. }
  split; [|split].
  - assert (SS : StronglySorted before fs1) by (apply sorted_filter; exact ST). assert (IL : forall i, In i fs1 -> In i its /\ segment_of C (p_rec i) (h_id (wr_hdr (p_rec i))) 1) by (intros i; apply IF).
    clear - SS IL ON IA. induction fs1 as [|x fs1 IH]; [constructor|]. inversion SS as [|? ? SS1 SS2]; subst. cbn [map]. constructor.
    + intros X. apply in_map_iff in X. destruct X as (y & E & Hy). rewrite Forall_forall in SS2. specialize (SS2 _ Hy). rewrite Forall_forall in IA.
      destruct (IL x (or_introl eq_refl)) as (X1 & X2). destruct (IL y (or_intror Hy)) as (Y1 & Y2). rewrite E in Y2.
      destruct (ON _ _ _ _ _ _ _ _ _ _ (IA x X1) (IA y Y1) X2 Y2) as (E1 & E2). unfold before in SS2. lia.
    + apply IH; auto. intros i Hi. apply IL. right. auto.
  - intros id. rewrite in_map_iff. split.
    + intros (i & <- & Hi). apply IF in Hi. destruct Hi as (Hi & SG). exists (p_silo i), (p_off i), (p_rec i), (p_ent i). rewrite Forall_forall in IA. auto.
    + intros (n & o & w & e & A & SG). exists (mkPart n o w e). pose proof SG as (_ & SI). cbn in SI. cbn [p_rec]. split; [auto|]. apply IF. cbn [p_rec]. rewrite SI. split; [|auto]. eapply its_is; eauto.
  - exists (S (N.to_nat k + List.length segs)). intros fuel LF. unfold audit_archive. rewrite (opened_gapless s k G (N.to_nat k)) by lia.
    change (map (fun n => (n, content s n)) (map N.of_nat (seq (N.to_nat 0) (N.to_nat k)))) with l. cbn [bind]. unfold main_audit. rewrite S1. cbn [bind].
    rewrite (pending_good fuel segs S3 OK OB) by lia. cbn [bind]. f_equal. f_equal.
    + rewrite <- ML. clear - P2. induction P2 as [|x ps l pss X F IH]; auto. cbn [combine flat_map map fst snd app]. rewrite IH. do 3 f_equal. unfold len. rewrite <- (map_length p_ent ps). rewrite X. auto.
    + rewrite EF, !map_map. reflexivity.
Qed.

Hypothesis ZO : zlib_ok L.

Lemma ended_entire x : reach C L x -> (forall j p, In (j, p) (wo_procs x) -> exists a, p = Ret a) -> entire C L (wo_fs x).
Proof.
  intros R HR n o w e v IA SN. pose proof IA as (He & EN & _).
  destruct (reach_oinv C L CO ZO x R) as (owns & ls & W & HP & HN & HE). destruct (HE e He) as (i & Hi).
  destruct (nth_error (wo_procs x) i) as [[j p]|] eqn:N1; [|rewrite (HN i N1) in Hi; destruct Hi].
  pose proof (nth_error_In _ _ N1) as IN. specialize (HP i j p N1). destruct (HR j p IN) as (a & ->).
  assert (FS : flag (e_flags e) IDX_F_SEGMENTED = true).
  { pose proof (sorted_in C L CO _ _ _ _ _ IA) as S. destruct EN as (_ & _ & _ & F & _). pose proof F as (t & T & _).
    rewrite (flags_val _ _ _ S T F). apply has_get in SN; auto. rewrite SN.
    destruct (flag_cases t) as [->|[->|[->| ->]]]; destruct (bytes_eqb _ _), (hget (wr_hdr w) "WARC-Segment-Total-Length"); reflexivity. }
  cbn [tr wp made] in HP. destruct j as [r|z id|k]; cbn [made fst snd] in HP; [|rewrite HP in Hi; destruct Hi|rewrite Forall_forall in HP; destruct (HP e Hi); congruence].
  destruct HP as (b & -> & [E|(id & p & rest & E1 & E2 & E0 & E3 & E4 & _)]); cbn [fst snd] in *; [rewrite E in Hi; destruct Hi|].
  rewrite Forall_forall in E4. destruct (E4 e Hi) as (_ & PL).
  specialize (PL FS). destruct rest as [|q rest]; [destruct PL|].
  apply in_map_iff in PL. destruct PL as (p' & EP & Hp). unfold place in EP. injection EP as P1 P2. destruct EN as (N2 & N3 & _).
  eexists _, id, (List.concat (r_data r)), (p :: q :: rest), p'. split; [auto|]. split; [exact E3|]. split; [cbn [List.length]; lia|].
  split; [auto|]. split; congruence.
Qed.

Theorem audit_ended x k : reach C L x -> (forall j p, In (j, p) (wo_procs x) -> exists a, p = Ret a) ->
  once C L (wo_fs x) -> in_order C L (wo_fs x) -> gapless (wo_fs x) k -> meta_named C L ign (wo_fs x) ->
  N.of_nat (List.length (f_idx (wo_fs x))) < 2 ^ 31 - 2 ->
  exists ids, NoDup ids /\ (forall id, In id ids <-> exists n o w e, in_archive C L (wo_fs x) n o w e /\ segment_of C w id 1) /\
  exists m, forall fuel, (m <= fuel)%nat -> audit_archive C L ign fuel (wo_fs x) =
    Ok (flat_map (fun n => [LSilo (Z.of_N n); LTotal (len (entries (wo_fs x) n)) 0]) (upto k) ++ map LObject ids).
Proof.
  intros R HR ON IO G MN SZ. apply audit_clean; auto; [apply (reach_inv C L CO ZO x R)|apply (all_done C L CO ZO x R HR)|apply ended_entire; auto].
Qed.
End Main.
