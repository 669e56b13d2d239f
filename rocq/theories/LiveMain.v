(* A store which runs alone succeeds. *)
From Coq Require Import String Permutation.
From Coq Require Import ZifyBool ZifyNat ZifyN.
From Verif Require Import Base RoomSpec BaseLemmas ListLemmas IndexModel IndexSpec HeaderModel HeaderSpec HeaderProofs
  InflateSpec InflateProofs GzipModel GzipSpec GzipProofs ProgModel StoreModel StoreSpec StoreSysModel StoreWp StoreSys StoreHdr
  StoreWrite StoreCommit StoreJob StoreMain StoreGet StoreAgain LiveSpec.
Open Scope string_scope.
Open Scope list_scope.
Open Scope N_scope.

(** * Programs which end well *)

Definition alive {A} (p : prog A) (s : fs) (Q : A -> fs -> Prop) : Prop := exists a s', run p s = (s', inl a) /\ Q a s'.

Lemma run_bind {A B} (p : prog A) (k : A -> prog B) : forall s, run (bindp p k) s =
  let (s', r) := run p s in match r with inl a => run (k a) s' | inr d => (s', inr d) end.
Proof.
  induction p as [a|d|c f IH]; intros s; cbn [bindp run]; auto. destruct (exec c s) as [s' a]. apply IH.
Qed.

Lemma al_ret {A} (a : A) s (Q : A -> fs -> Prop) : Q a s -> alive (Ret a) s Q.
Proof. intros H. exists a, s. auto. Qed.
Lemma al_bind {A B} (p : prog A) (k : A -> prog B) s Q R : alive p s Q -> (forall a s', Q a s' -> alive (k a) s' R) -> alive (bindp p k) s R.
Proof. intros (a & s' & E & H) K. destruct (K a s' H) as (b & s2 & E2 & H2). exists b, s2. rewrite run_bind, E. auto. Qed.
Lemma al_sys {B} c (k : ans c -> prog B) s R : alive (k (snd (exec c s))) (fst (exec c s)) R -> alive (bindp (sys c) k) s R.
Proof. intros H. unfold alive, sys. cbn [bindp run]. destruct (exec c s) as [s' a]. exact H. Qed.
Lemma al_assert {B} b (k : unit -> prog B) s R : b = true -> alive (k tt) s R -> alive (bindp (assert b) k) s R.
Proof. intros -> H. exact H. Qed.
Lemma al_weak {A} (p : prog A) s (Q R : A -> fs -> Prop) : alive p s Q -> (forall a s', Q a s' -> R a s') -> alive p s R.
Proof. intros (a & s' & E & H) K. exists a, s'. auto. Qed.

(** * Headers *)

Lemma take_get name l o r : take_field name l = (o, r) -> get_field l name = option_map hf_val o.
Proof.
  revert o r. induction l as [|f l IH]; intros o r; cbn [take_field get_field].
  - intros H. injection H as <- <-. auto.
  - destruct (caseeq name (hf_name f)); [intros H; injection H as <- <-; auto|].
    destruct (take_field name l) as [o' r'] eqn:E. intros H. injection H as <- <-. eapply IH. reflexivity.
Qed.

Lemma set_len_old prefix hd n v v' hd' : hget hd n = Some v ->
  Header_Set hd (str n) v' = Ok hd' -> hlen prefix hd' + len v = hlen prefix hd + len v'.
Proof.
  unfold hget, Header_Get. intros Hg. unfold Header_Set, guard. destruct (settable (str n)); [|discriminate]. cbn [bind].
  destruct (take_field (str n) (h_fields hd)) as [o r] eqn:E. destruct (place_field _ _ r) as [l| | |] eqn:F; try discriminate.
  cbn [bind]. intros H. injection H as <-. rewrite !hlen_eq. cbn [h_id h_fields].
  pose proof (take_get _ _ _ _ E) as G. rewrite Hg in G. destruct o as [f|]; [|discriminate]. cbn [option_map] in G. injection G as ->.
  apply take_sum in E. destruct E as [E1 _]. apply place_sum in F. cbn [hf_name hf_val] in F. rewrite F, E1. unfold Header_Len. lia.
Qed.

Lemma hset_old prefix hd n v0 v : hgood hd -> goodname n = true -> goodval v -> hget hd n = Some v0 ->
  exists hd', hset hd n v = Ret hd' /\ hgood hd' /\ h_id hd' = h_id hd /\
    (forall m, hget hd' m = if samename m n then Some v else hget hd m) /\
    hlen prefix hd' + len v0 = hlen prefix hd + len v.
Proof.
  intros H1 H2 H3 H4. destruct (set_good prefix hd n v H1 H2 H3) as (hd' & E & A & B & D & _). exists hd'.
  split; [unfold hset; rewrite E; auto|]. split; [auto|]. split; [auto|]. split; [auto|]. eapply set_len_old; eauto.
Qed.

Lemma hset_new prefix hd n v : hgood hd -> goodname n = true -> goodval v -> hget hd n = None ->
  exists hd', hset hd n v = Ret hd' /\ hgood hd' /\ h_id hd' = h_id hd /\
    (forall m, hget hd' m = if samename m n then Some v else hget hd m) /\
    hlen prefix hd' = hlen prefix hd + Header_Len (str n) v.
Proof.
  intros H1 H2 H3 H4. destruct (set_good prefix hd n v H1 H2 H3) as (hd' & E & A & B & D & _). exists hd'.
  split; [unfold hset; rewrite E; auto|]. split; [auto|]. split; [auto|]. split; [auto|]. eapply set_len_new; eauto.
Qed.

Section Live.
Variable C : conf.
Variable L : zlib.
Hypothesis CO : conf_ok C.
Hypothesis ZO : zlib_ok L.
Hypothesis ZL : zlib_live L.
Notation prefix := (c_prefix C).

Lemma vsb_live level t : is_bytes t -> len t < 2 ^ 61 -> exists p, Gzip_Vsb (z_gzip L) level t = Ok p /\
  24 <= len p <= len t + len t / 64 + 100 /\ len p = len (z_gzip L level t).
Proof.
  intros Hb Hl. destruct (zo_gzip L ZO level t Hb) as (_ & G2 & _); [lia|].
  destruct (zl_gzip L ZL level t Hb) as (xfl & r & HX & E); [lia|].
  unfold Gzip_Vsb. assert (G : Gzip_GoodAa (z_gzip L level t) = Ok true) by (rewrite E; apply good_aa; auto). rewrite G. cbn [bind].
  unfold guard. cbn [bind]. replace (len (z_gzip L level t) <? 24) with false by lia. eexists. split; [reflexivity|].
  assert (W : len (file_write (z_gzip L level t) 16 (le_enc 8 (len (z_gzip L level t)))) = len (z_gzip L level t)).
  { unfold file_write. unfold len in *. rewrite !app_length, firstn_length, app_length, repeat_length, skipn_length, le_enc_length. lia. }
  rewrite W. auto.
Qed.

Lemma hser_live level hd : hgood hd -> is_bytes (h_id hd) -> hlen prefix hd <= 3800 ->
  exists p, hser C L level hd = Ret p /\ 24 <= len p <= hlen prefix hd + 160 /\ len p = len (z_gzip L level (Header_Serialize prefix hd)).
Proof.
  intros Hg Hi Hl. destruct (co_prefix C CO) as (P1 & P2 & P3).
  destruct (vsb_live level (Header_Serialize prefix hd) (ser_bytes _ _ P2 Hg Hi)) as (p & E & B & E2); [unfold hlen in Hl; lia|].
  exists p. unfold hser. rewrite E. split; auto. unfold hlen in *.
  assert (len (Header_Serialize prefix hd) / 64 <= 60) by (apply N.div_le_upper_bound; lia). split; [lia|auto].
Qed.

Lemma ident_live hd d t : hget hd "WARC-Type" = Some t ->
  (t = str "resource" \/ t = str "warcinfo" \/ t = str "metadata" /\ exists ref, hget hd "WARC-Refers-To" = Some ref) ->
  exists hd', Ident_Set (z_sha L) prefix (c_idsize C) hd (z_sha L d) None = Ok hd'.
Proof.
  intros HT H. pose proof (co_idsize C CO) as IS. unfold Ident_Set, Ident_Create. fold (hget hd "WARC-Type"). fold (hget hd "WARC-Refers-To"). rewrite HT.
  assert (F : forall y, exists hd', Header_Set_Id (c_idsize C) hd (firstn (N.to_nat (c_idsize C)) (z_sha L y)) = Ok hd').
  { intros y. unfold Header_Set_Id, guard. destruct (hex_id (firstn (N.to_nat (c_idsize C)) (z_sha L y))) as (_ & ->).
    - apply forall_firstn. apply sha_hex. auto.
    - cbn [bind]. rewrite ident_len; [|auto|apply (zo_sha L ZO y)]. rewrite N.leb_refl. cbn [bind]. eauto. }
  destruct H as [->|[->|(-> & ref & ->)]]; cbn [bind]; apply F.
Qed.

(** * The state while the hold is written *)

Variable s0 : fs.
Hypothesis AO : archive_ok C L s0.
Hypothesis DT : date_ok (f_clock s0).
Hypothesis QU : at_rest s0.

Definition still (s : fs) : Prop := f_silo s = f_silo s0 /\ f_idx s = f_idx s0 /\ f_clock s = f_clock s0.
(* the other holds *)
Variable OH : N -> option bytes.
Definition held (s : fs) (n : N) (hb : bytes) : Prop := still s /\ f_hold s n = Some hb /\ (forall m, m <> n -> f_hold s m = OH m).

Lemma put_live s n sl hb d : held s n hb -> w_no sl = n -> w_len sl = len hb -> w_buf sl = true -> 0 < len d <= BUFLEN ->
  len hb + len d <= c_max C ->
  alive (put C sl d) s (fun sl' s' => held s' n (hb ++ d) /\
    sl' = mkW n (w_idx sl) (len (hb ++ d)) (w_start sl) (w_hlen sl) true (w_wid sl)).
Proof.
  intros (ST & H1 & H2) <- E B LD LM. unfold put, Wsilo_Store. apply al_assert; [lia|]. apply al_assert.
  { unfold Wsilo_GetSpace. rewrite B, E. destruct (_ <? _)%Z; lia. }
  apply al_assert; [lia|]. rewrite B. apply al_assert; [lia|]. apply al_sys. cbn [exec fst snd]. apply al_ret. split.
  - split; [exact ST|]. cbn [set_hold f_hold]. unfold hold_of. rewrite H1, upd_same. split; [auto|]. intros m Hm. rewrite upd_other; auto.
  - rewrite E, len_app. auto.
Qed.

Ltac hst H5 := match goal with
  | |- alive (bindp (hset ?h ?n ?v) _) _ _ =>
    let h' := fresh "h" in let E := fresh "E" in let G := fresh "G" in let I := fresh "I" in
    let GG := fresh "GG" in let LL := fresh "LL" in
    destruct (H5 prefix h n v) as (h' & E & G & I & GG & LL);
    [auto | reflexivity | auto | auto .. | rewrite E; cbn [bindp]; clear E; unfold Header_Len in LL; rewrite ?len_str in LL;
      cbn [String.length] in LL]
  end.

Variable D : N.
Hypothesis FIT : forall n, n < 2 ^ 32 -> len (warcinfo_body C (c_base C n)) <= 2 ^ 19 /\
  2 * len (warcinfo_body C (c_base C n)) + 8 * D + 12000 <= c_max C.

Lemma Warcinfo_live s n : n < 2 ^ 32 -> held s n [] ->
  alive (Warcinfo_New C L (mkW n 0 0 0 0 true []) n) s (fun sl s' => exists r, held s' n r /\
    24 <= len r <= 2 * len (warcinfo_body C (c_base C n)) + 4500 /\ sl = mkW n 0 (len r) 0 0 true (w_wid sl)).
Proof.
  intros HN M. unfold Warcinfo_New. set (fn := c_base C n). set (body := warcinfo_body C fn).
  destruct (co_base C CO n HN) as (B1 & B2 & B3). fold fn in B1, B2, B3. destruct (co_prefix C CO) as (P1 & P2 & P3).
  pose proof (co_idsize C CO) as IS. pose proof (FIT n HN) as (RB & RM). fold fn in RM, RB. fold body in RM, RB. pose proof (co_max C CO) as MX.
  pose proof (hgood_new C) as G0. assert (GF : goodval fn) by (split; auto).
  hst hset_ret. apply al_sys. cbn [exec fst snd]. destruct DT as (D1 & D2 & D3). destruct M as ((S1 & S2 & S3) & M1 & M2).
  assert (GD : goodval (f_clock s)) by (rewrite S3; split; auto). hst hset_ret.
  assert (GW : goodval (str "warcinfo")) by (apply goodb_val; reflexivity). hst hset_ret.
  assert (GA : goodval (str "application/warc-fields")) by (apply goodb_val; reflexivity). hst hset_ret.
  pose proof (goodval_dec (len body)) as GL. hst hset_ret. pose proof (goodval_sha L ZO body) as GS. hst hset_ret.
  destruct (ident_live h4 body (str "warcinfo")) as (hd & EI).
  { rewrite GG4. names. rewrite GG3. names. rewrite GG2. names. rewrite GG1. names. auto. }
  { auto. }
  rewrite EI. cbn [lift bindp].
  apply ident_set_cases in EI; auto. destruct EI as (EF & x & EX & _).
  assert (GH : hgood hd) by (unfold hgood; rewrite EF; auto).
  assert (IG : idgood (h_id hd)) by (rewrite EX; apply hex_id; apply forall_firstn; apply sha_hex; auto).
  assert (LI : len (h_id hd) = c_idsize C) by (rewrite EX; apply ident_len; auto; apply (len_sha L ZO)).
  assert (LH : hlen prefix hd <= 1800).
  { rewrite hlen_eq, EF, LI. rewrite hlen_eq in LL4. pose proof (dec_len (len body) ltac:(lia)). rewrite len_str_app in LL4. cbn [String.length] in LL4.
    rewrite (len_sha L ZO) in LL4. rewrite hlen_new in LL. rewrite I4, I3, I2, I1, I0, I in LL4. cbn [Header_New h_id] in LL4. unfold len at 2 in LL4. rewrite repeat_length in LL4.
    rewrite S3 in LL0. lia. }
  destruct (vsb_live 0 body (body_bytes C CO n HN)) as (bgz & EB & LB & _); [lia|]. rewrite EB. cbn [lift bindp].
  assert (len body / 64 <= len body) by (apply N.div_le_upper_bound; lia).
  assert (len body / 64 <= 2 ^ 13) by (apply N.div_le_upper_bound; lia).
  destruct (hser_live 0 hd GH (proj2 IG)) as (hgz & EH & LZ & _); [lia|]. rewrite EH. cbn [bindp]. unfold BUFLEN in *.
  eapply al_bind; [apply (put_live s n _ []); cbn [w_no w_len w_buf]; auto; [split; [split; auto|auto]|unfold BUFLEN; lia|cbn [len List.length]; rewrite len_nil; lia]|].
  cbn beta. intros sl2 s2 (H2 & ->). cbn [w_no w_idx w_len w_start w_hlen w_buf w_wid app] in *.
  eapply al_bind; [apply (put_live s2 n _ hgz); cbn [w_no w_len w_buf]; auto; [unfold BUFLEN; lia|lia]|].
  cbn beta. intros sl3 s3 (H3 & ->). cbn [w_no w_idx w_len w_start w_hlen w_buf w_wid] in *.
  eapply al_bind; [apply (put_live s3 n _ (hgz ++ bgz)); cbn [w_no w_len w_buf]; auto; [vm_compute; split; congruence|rewrite len_app; change (len crnlcrnl) with 24; lia]|].
  cbn beta. intros sl4 s4 (H4 & ->). cbn [w_no w_idx w_len w_start w_hlen w_buf w_wid] in *.
  apply al_ret. exists ((hgz ++ bgz) ++ crnlcrnl). split; [auto|]. split; [|auto]. rewrite !len_app. change (len crnlcrnl) with 24. fold fn. fold body. lia.
Qed.

Lemma space_ge sl k : w_buf sl = true -> k <= BUFLEN -> w_len sl + k <= c_max C -> (Z.of_N k <= Wsilo_GetSpace C sl)%Z.
Proof. intros B K M. unfold Wsilo_GetSpace. rewrite B. destruct (_ <? _)%Z; lia. Qed.

Definition new_silo (s : fs) (sl : wsilo) : Prop := exists r, held s (w_no sl) r /\
  24 <= len r <= 2 * len (warcinfo_body C (c_base C (w_no sl))) + 4500 /\ sl = mkW (w_no sl) 0 (len r) 0 0 true (w_wid sl) /\
  f_silo s0 (w_no sl) = None /\ OH (w_no sl) = None /\ w_no sl < 2 ^ 32 - 1.

Lemma next_live m fuel : forall s j, still s -> (forall k, f_hold s k = OH k) -> j <= m -> m < 2 ^ 32 - 1 -> f_silo s0 m = None -> OH m = None -> m < j + N.of_nat fuel ->
  alive (next_loop C L fuel j) s (fun sl s' => new_silo s' sl).
Proof.
  induction fuel as [|fu IH]; intros s j ST QS J M FM FH FU; [lia|]. cbn [next_loop]. replace (2 ^ 32 - 1 <=? j) with false by lia.
  pose proof ST as (S1 & S2 & S3).
  destruct (f_silo s0 j) as [[b w]|] eqn:FJ.
  - assert (E : alive (Wsilo_New C L j) s (fun x s' => x = None /\ s' = s)).
    { unfold Wsilo_New. apply al_sys. cbn [exec fst snd]. rewrite S1, FJ. apply al_ret. auto. }
    eapply al_bind; [exact E|]. cbn beta. intros x s' (-> & ->). apply IH; auto; [|lia]. destruct (N.eq_dec j m) as [->|]; [congruence|lia].
  - destruct (OH j) as [hj|] eqn:FHJ.
    { assert (E : alive (Wsilo_New C L j) s (fun x s' => x = None /\ s' = s)).
      { unfold Wsilo_New. apply al_sys. cbn [exec fst snd]. rewrite S1, FJ. apply al_sys. cbn [exec fst snd]. rewrite QS, FHJ. apply al_ret. auto. }
      eapply al_bind; [exact E|]. cbn beta. intros x s' (-> & ->). apply IH; auto; [|lia]. destruct (N.eq_dec j m) as [->|]; [congruence|lia]. }
    assert (E : alive (Wsilo_New C L j) s (fun x s' => exists sl, x = Some sl /\ new_silo s' sl)).
    { unfold Wsilo_New. apply al_sys. cbn [exec fst snd]. rewrite S1, FJ. apply al_sys. cbn [exec fst snd]. rewrite QS, FHJ.
      apply al_sys. cbn [exec]. rewrite QS, FHJ. cbn [fst snd negb].
      eapply al_bind; [apply (Warcinfo_live _ j); [lia|]|].
      - split; [exact ST|]. cbn [set_hold f_hold]. rewrite upd_same. split; [auto|]. intros k Hk. rewrite upd_other; auto.
      - cbn beta. intros sl s' (r & H1 & H2 & H3). apply al_ret. exists sl. split; [auto|]. assert (EN : w_no sl = j) by (rewrite H3; auto).
        exists r. rewrite EN. split; [auto|]. split; [auto|]. split; [auto|]. split; [auto|]. split; [auto|lia]. }
    eapply al_bind; [exact E|]. cbn beta. intros x s' (sl & -> & H). apply al_ret. auto.
Qed.

Hypothesis LEFT : exists m, m < 2 ^ 32 - 1 /\ f_silo s0 m = None /\ OH m = None /\ m < N.of_nat (c_fuel C).

Lemma Wsilo_Next_live s aa : still s -> (forall k, f_hold s k = OH k) -> f_cache s = f_cache s0 -> cache_ok C s0 aa ->
  alive (Wsilo_Next C L aa) s (fun x s' => cache_ok C s0 (fst x) /\ new_silo s' (snd x)).
Proof.
  intros ST QS FC CA. unfold Wsilo_Next, ReadCache. eapply al_bind with (Q := fun c s' => cache_ok C s0 c /\ s' = s).
  - apply al_sys. cbn [exec fst snd]. apply al_ret. split; [|auto]. rewrite FC. destruct (f_cache s0) as [c|] eqn:E; [|auto]. apply AO. auto.
  - cbn beta. intros c s' (HC & ->). destruct LEFT as (m & M1 & M2 & M4 & M3). eapply al_bind; [apply (next_live m); auto; [|lia]|].
    + destruct HC as (_ & _ & H3 & _). destruct (N.le_gt_cases (fst c) m) as [|X]; [auto|]. apply H3 in X. congruence.
    + cbn beta. intros sl s2 H. apply al_ret. auto.
Qed.

(** * One segment *)

Variable typ : bytes.
Variable refo : option bytes.
Hypothesis TY : typ = str "resource" \/ typ = str "metadata" /\ exists ref, refo = Some ref.
Variable kz : N.
Hypothesis KZ : forall t, is_bytes t -> 0 < len t <= 4096 -> len (z_gzip L 0 t) = len t + kz.

Lemma stored_len hd : hgood hd -> is_bytes (h_id hd) -> hlen prefix hd <= 4096 -> len (z_gzip L 0 (Header_Serialize prefix hd)) = hlen prefix hd + kz.
Proof.
  intros G I LH. destruct (co_prefix C CO) as (P1 & P2 & P3). unfold hlen in *. apply KZ; [apply ser_bytes; auto|]. split; [|auto].
  change (0 < hlen prefix hd). rewrite hlen_eq. lia.
Qed.

Definition idlen (h : header) : Prop := len (h_id h) = c_idsize C /\ is_bytes (h_id h).
Definition base (h : header) : Prop := hgood h /\ idlen h /\ hget h "WARC-Type" = Some typ /\ hget h "WARC-Refers-To" = refo /\
  hget h "z" = None /\ hget h "WARC-Block-Digest" = None /\ hget h "Content-Length" = None /\ hlen prefix h <= 1850.
Definition seghd (h : header) : Prop := hgood h /\ idlen h /\ hget h "WARC-Type" = Some typ /\ hget h "WARC-Refers-To" = refo /\
  hget h "z" = None /\ hget h "WARC-Block-Digest" = Some (str "sha256:" ++ z_sha L []) /\
  hget h "Content-Length" = Some (str "00" ++ dec (c_max C)) /\ hlen prefix h <= 2000.

Lemma store_live s n sl hb d : held s n hb -> w_no sl = n -> w_len sl = len hb -> w_buf sl = true -> 0 < len d <= BUFLEN ->
  alive (Wsilo_Store sl d) s (fun sl' s' => held s' n (hb ++ d) /\
    sl' = mkW n (w_idx sl) (len (hb ++ d)) (w_start sl) (w_hlen sl) true (w_wid sl)).
Proof.
  intros (ST & H1 & H2) <- E B LD. unfold Wsilo_Store.
  apply al_assert; [lia|]. rewrite B. apply al_assert; [lia|]. apply al_sys. cbn [exec fst snd]. apply al_ret. split.
  - split; [exact ST|]. cbn [set_hold f_hold]. unfold hold_of. rewrite H1, upd_same. split; [auto|]. intros m Hm. rewrite upd_other; auto.
  - rewrite E, len_app. auto.
Qed.

(* the silo in which a segment is written *)
Definition open_at (pd : N) (sl : wsilo) (h : header) (out hb : bytes) : Prop := exists pre hp idx wid,
  hb = pre ++ hp ++ out /\ len pre <= 2 * len (warcinfo_body C (c_base C (w_no sl))) + 4500 /\
  len hp = hlen prefix h + kz + pd /\ kz <= 160 /\ w_no sl < 2 ^ 32 - 1 /\ f_silo s0 (w_no sl) = None /\ OH (w_no sl) = None /\
  sl = mkW (w_no sl) idx (len hb) (len pre) (len hp) true wid.

Lemma Wsilo_Header_live s sl h pd : new_silo s sl -> hgood h -> idlen h -> hlen prefix h <= 2800 -> 0 < pd <= 194 ->
  alive (Wsilo_Header C L sl h pd) s (fun sl' s' => exists hb, held s' (w_no sl') hb /\ open_at (pd + 6) sl' h [] hb).
Proof.
  intros (r & HE & LR & E & FN & FH & HN) G (I1 & I2) LH LPD. unfold Wsilo_Header.
  pose proof (FIT (w_no sl) ltac:(lia)) as (RB & RM).
  replace (0 <? pd) with true by lia. change (Header_Len (str "z") (str "_")) with 6. cbv zeta. remember (pd + 6) as pp eqn:EP.
  apply al_assert; [rewrite E; reflexivity|].
  destruct (hser_live 0 h G I2) as (v2 & EH & LV & LV2); [lia|]. rewrite EH. cbn [bindp]. rewrite (stored_len h G I2) in LV2 by lia.
  set (idx := if _ : bool then _ else _). clearbody idx. destruct sl as [no ix ln st hl bf wid]. cbn [w_no w_idx w_len w_start w_hlen w_buf w_wid] in *.
  injection E as -> -> -> -> ->. apply al_assert; [lia|]. apply al_assert.
  { match goal with |- (_ <? Wsilo_GetSpace C ?x)%Z = true => pose proof (space_ge x (len v2 + pp + 1) eq_refl) as SP end.
    unfold BUFLEN in SP. cbn [w_len] in SP. lia. }
  eapply al_bind; [apply (store_live s no _ r); cbn [w_no w_len w_buf]; auto; unfold BUFLEN; lia|]. cbn beta. intros sl1 s1 (H1 & ->).
  cbn [w_no w_idx w_len w_start w_hlen w_buf w_wid] in *. apply al_assert.
  { match goal with |- (_ <? Wsilo_GetSpace C ?x)%Z = true => pose proof (space_ge x (pp + 1) eq_refl) as SP end.
    unfold BUFLEN in SP. cbn [w_len] in SP. pose proof (len_app r v2). lia. }
  assert (LR2 : len (repeat 95 (N.to_nat pp)) = pp) by (unfold len; rewrite repeat_length; lia).
  eapply al_weak; [apply (store_live s1 no _ (r ++ v2)); cbn [w_no w_len w_buf]; auto; rewrite LR2; unfold BUFLEN; lia|].
  cbn beta. intros sl2 s2 (H2 & ->). cbn [w_no w_idx w_len w_start w_hlen w_buf w_wid] in *.
  eexists. split; [exact H2|]. exists r, (v2 ++ repeat 95 (N.to_nat pp)), idx, wid. cbn [w_no].
  assert (LP : len (v2 ++ repeat 95 (N.to_nat pp)) = len v2 + pp) by (rewrite len_app; lia).
  split; [rewrite app_nil_r, app_assoc; auto|]. split; [lia|]. split; [rewrite LP; lia|]. split; [lia|]. split; [auto|]. split; [auto|]. split; [auto|].
  rewrite LP. auto.
Qed.

Lemma newseg_live s aa sj : still s -> (forall k, f_hold s k = OH k) -> f_cache s = f_cache s0 -> cache_ok C s0 aa -> base (sj_hdr L sj) -> sj_nseg L sj = 0 ->
  alive (segjob_newseg C L aa sj) s (fun x s' => cache_ok C s0 (fst x) /\ exists h sl hb, seghd h /\ held s' (w_no sl) hb /\ open_at 124 sl h [] hb /\
    snd x = mkJ L (sj_hdr L sj) (sj_ident L sj) 1 (sj_done L sj) (Some (mkS 1 h sl 0)) (sj_pay L sj) [] (sj_size L sj) (z_init L) [] ZNone).
Proof.
  intros ST QS FC CA (G & I & B1 & B2 & B3 & B4 & B5 & B6) NS. unfold segjob_newseg. rewrite NS. change (2 ^ 31 - 1 <=? 0) with false. cbv iota zeta.
  rewrite clone_eq. pose proof (goodval_sha L ZO []) as GS. hst hset_new.
  assert (GC : goodval (str "00" ++ dec (c_max C))) by (apply goodval_app; [apply goodb_val; reflexivity|apply goodval_dec]).
  assert (N1 : hget h "Content-Length" = None) by (rewrite GG; names; auto). hst hset_new. change (0 + 1 =? 1) with true. cbv iota. cbn [bindp].
  pose proof (co_max C CO) as MX. pose proof (dec_len (c_max C) ltac:(lia)) as DL.
  assert (SH : seghd h0).
  { split; [auto|]. split; [unfold idlen; rewrite I1, I0; exact I|].
    split; [rewrite GG0; names; rewrite GG; names; auto|]. split; [rewrite GG0; names; rewrite GG; names; auto|].
    split; [rewrite GG0; names; rewrite GG; names; auto|]. split; [rewrite GG0; names; rewrite GG; names; auto|].
    split; [rewrite GG0; names; auto|]. rewrite len_str_app, (len_sha L ZO) in LL. rewrite len_str_app in LL0. cbn [String.length] in *. lia. }
  eapply al_bind; [apply Wsilo_Next_live; auto|]. cbn beta. intros (aa' & sl) s1 (CA' & NW). cbn [fst snd] in *.
  eapply al_bind.
  { apply Wsilo_Header_live; [exact NW|apply SH|apply SH|destruct SH as (_ & _ & _ & _ & _ & _ & _ & SH); lia|].
    unfold Header_Len. rewrite len_str_app, (len_sha L ZO), !len_str. vm_compute. split; congruence. } cbn beta. intros sl' s2 (hb & HE & OP). apply al_ret. cbn [fst snd]. split; [auto|].
  replace (_ + 6) with 124 in OP by (unfold Header_Len; rewrite len_str_app, (len_sha L ZO), !len_str; reflexivity).
  exists h0, sl', hb. auto.
Qed.

Definition going (s : fs) (sj : segjob L) (tk : bytes) : Prop := exists sg out hb,
  sj_cur L sj = Some sg /\ sj_done L sj = [] /\ sj_nseg L sj = 1 /\ sj_ident L sj = None /\ seghd (sg_hdr sg) /\ sg_no sg = 1 /\ sg_size sg = len tk /\
  held s (w_no (sg_silo sg)) hb /\ open_at 124 (sg_silo sg) (sg_hdr sg) out hb /\ zran L (sj_z L sj) tk out /\ sj_in L sj = [] /\
  sj_seg L sj = tk /\ sj_pay L sj = tk /\ sj_size L sj = len tk /\ (sj_flag L sj = ZNone \/ sj_flag L sj = ZPartial).

(* how much room there is *)
Lemma room sl h out hb tk z : seghd h -> open_at 124 sl h out hb -> zran L z tk out -> len tk <= D ->
  let sp := Wsilo_GetSpace C sl in
  (sp = Z.of_N BUFLEN \/ sp = Z.of_N (c_max C) - Z.of_N (len hb))%Z /\
  (Z.of_N (len hb) + 8 * Z.of_N D - Z.of_N (len out) + 5000 <= Z.of_N (c_max C))%Z /\ (4000 <= sp <= Z.of_N BUFLEN)%Z /\
  len out <= zmax (len tk).
Proof.
  intros (_ & _ & _ & _ & _ & _ & _ & LH) (pre & hp & idx & wid & -> & LP & LHP & LK & HN & _ & _ & E) Z LD. cbv zeta.
  pose proof (zl_total L ZL _ _ _ Z) as ZT. destruct (FIT (w_no sl) ltac:(lia)) as (RB & RM).
  destruct sl as [no ix ln st hl bf w]. cbn [w_no] in *. injection E as -> -> -> -> -> ->.
  unfold Wsilo_GetSpace. cbn [w_buf w_len]. unfold zmax, BUFLEN in *. rewrite !len_app.
  destruct (_ <? _)%Z eqn:X; lia.
Qed.

Lemma outbuf sg (sp : Z) : Wsilo_GetSpace C (sg_silo sg) = sp -> (24 <= sp)%Z -> segjob_setup_outbuf C sg = Ret (Z.to_N (sp - 24)).
Proof.
  intros <- H. unfold segjob_setup_outbuf. replace (Wsilo_GetSpace C (sg_silo sg) =? 0)%Z with false by lia. cbn [negb assert bindp].
  replace (_ <? 24)%Z with false by lia. auto.
Qed.

(* deflate(3) and what it gave written *)
Lemma deflate_live s sj sg ob fl hb z' c out rc : held s (w_no (sg_silo sg)) hb -> w_len (sg_silo sg) = len hb -> w_buf (sg_silo sg) = true ->
  ob <= BUFLEN -> z_deflate L (sj_z L sj) (sj_in L sj) ob fl = (z', c, out, rc) -> rc = ZOk \/ rc = ZEnd /\ fl = ZFinish ->
  alive (segjob_deflate L sj sg ob fl) s (fun x s' => held s' (w_no (sg_silo sg)) (hb ++ out) /\
    let sl := sg_silo sg in let sg' := mkS (sg_no sg) (sg_hdr sg) (mkW (w_no sl) (w_idx sl) (len (hb ++ out)) (w_start sl) (w_hlen sl) true (w_wid sl)) (sg_size sg) in
    x = (mkJ L (sj_hdr L sj) (sj_ident L sj) (sj_nseg L sj) (sj_done L sj) (Some sg')
           (sj_pay L sj) (sj_seg L sj) (sj_size L sj) z' (skipn (N.to_nat c) (sj_in L sj)) fl, sg')).
Proof.
  intros HE WL WB OB E RC. unfold segjob_deflate. rewrite E. destruct (zo_bounds L ZO _ _ _ _ _ _ _ _ E) as (_ & LO).
  apply al_assert; [destruct RC as [->|(-> & ->)]; auto|]. 
  eapply al_bind with (Q := fun sl' s' => held s' (w_no (sg_silo sg)) (hb ++ out) /\
     sl' = mkW (w_no (sg_silo sg)) (w_idx (sg_silo sg)) (len (hb ++ out)) (w_start (sg_silo sg)) (w_hlen (sg_silo sg)) true (w_wid (sg_silo sg))).
  - destruct (0 <? len out) eqn:X.
    + apply store_live; auto. lia.
    + assert (out = []) as -> by (destruct out; [auto|unfold len in X; cbn [List.length] in X; lia]). apply al_ret. rewrite app_nil_r. split; [auto|].
      destruct (sg_silo sg) as [no ix ln st hl bf wid]; cbn [w_no w_idx w_len w_start w_hlen w_buf w_wid] in *. congruence.
  - cbn beta. intros sl' s' (H & ->). apply al_ret. auto.
Qed.

Lemma open_more pd sl h out hb o2 sl' : open_at pd sl h out hb ->
  sl' = mkW (w_no sl) (w_idx sl) (len (hb ++ o2)) (w_start sl) (w_hlen sl) true (w_wid sl) -> open_at pd sl' h (out ++ o2) (hb ++ o2).
Proof.
  intros (pre & hp & idx & wid & -> & H1 & H2 & H3 & H4 & H5 & H6 & E) ->. exists pre, hp, idx, wid. cbn [w_no].
  split; [rewrite <- !app_assoc; auto|]. split; [auto|]. split; [auto|]. split; [auto|]. split; [auto|]. split; [auto|]. split; [auto|].
  rewrite E. cbn [w_no w_idx w_start w_hlen w_wid]. auto.
Qed.

Lemma open_w pd sl h out hb : open_at pd sl h out hb -> w_len sl = len hb /\ w_buf sl = true.
Proof. intros (pre & hp & idx & wid & -> & H1 & H2 & H3 & H4 & H5 & H6 & ->). auto. Qed.

Lemma feed_live fuel : forall s aa sj tk ip, going s sj tk -> ip <> [] -> len tk + len ip <= D -> len ip < 2 ^ 18 * N.of_nat fuel ->
  alive (feed_loop C L fuel aa sj ip) s (fun x s' => fst x = aa /\ going s' (snd x) (tk ++ ip)).
Proof.
  induction fuel as [|fu IH]; intros s aa sj tk ip GO NI LD LF; [lia|]. cbn [feed_loop].
  destruct GO as (sg & out & hb & G1 & G2 & G3 & G4 & G5 & G6 & G7 & G8 & G9 & G10 & G11 & G12 & G13 & G14 & G15).
  rewrite G1. cbn [bindp]. rewrite G1. destruct (open_w _ _ _ _ _ G9) as (WL & WB).
  pose proof (room _ _ _ _ tk _ G5 G9 G10 ltac:(lia)) as RM. cbv zeta in RM. remember (Wsilo_GetSpace C (sg_silo sg)) as sp eqn:ES. destruct RM as (R1 & R2 & R3 & R4).
  rewrite (outbuf sg sp) by (auto; lia). cbn [bindp]. set (ob := Z.to_N (sp - 24)).
  assert (LI : 0 < len ip) by (destruct ip; [congruence|rewrite len_cons; lia]).
  replace ((ob <? 52) || (len ip =? 0)) with false by (unfold ob; lia). rewrite G11.
  set (n := N.min (ob / 2) (len ip)). assert (N0 : 0 < n).
  { unfold n. assert (1 <= ob / 2) by (apply N.div_le_lower_bound; unfold ob; lia). lia. }
  assert (N1 : n <= len ip) by (unfold n; lia). assert (N2 : 2 * n <= ob).
  { unfold n. pose proof (N.mul_div_le ob 2 ltac:(lia)). lia. }
  assert (N3 : n = len ip \/ 2 ^ 18 <= n).
  { unfold n, ob. clear - R1 R2 R4 LD R3. unfold zmax, BUFLEN in *. destruct R1 as [R1|R1].
    - destruct (N.le_gt_cases (len ip) (Z.to_N (sp - 24) / 2)); [left; lia|right]. rewrite N.min_l by lia. apply N.div_le_lower_bound; lia.
    - left. apply N.min_r. apply N.div_le_lower_bound; lia. }
  set (d := firstn (N.to_nat n) ip). assert (LDn : len d = n) by (unfold d, len in *; rewrite firstn_length; lia).
  assert (ND : d <> []) by (intros X; rewrite X, len_nil in LDn; lia).
  assert (OB : ob <= BUFLEN) by (unfold ob, BUFLEN in *; lia).
  replace (0 <? n) with true by lia. cbn [assert bindp].
  set (fl := if ob <? 131072 then ZPartial else sj_flag L sj).
  assert (FL : fl = ZNone \/ fl = ZPartial) by (unfold fl; destruct (ob <? 131072); auto).
  destruct (zl_call L ZL _ _ _ d ob fl G10 FL ND) as (z' & out' & EZ).
  { rewrite LDn. destruct R1 as [R1|R1].
    - right. unfold ob, BUFLEN in *. lia.
    - left. unfold zmax, ob in *. lia. }
  eapply al_bind.
  { eapply deflate_live; cbn [sj_z sj_in sg_silo]; [exact G8|exact WL|exact WB|exact OB|exact EZ|left; auto]. }
  cbn beta zeta. intros x s1 (H1 & ->). cbn [sj_hdr sj_ident sj_nseg sj_done sj_pay sj_seg sj_size sj_in sj_z sj_flag sg_no sg_hdr sg_silo sg_size].
  rewrite LDn. rewrite (skipn_all2 d) by (unfold len in LDn; lia). cbn [sj_in].
  set (sj' := mkJ L _ _ _ _ _ _ _ _ _ _ _).
  assert (GO' : going s1 sj' (tk ++ d)).
  { eexists _, (out ++ out'), (hb ++ out'). unfold sj'. cbn [sj_hdr sj_cur sj_ident sj_nseg sj_done sj_pay sj_seg sj_size sj_in sj_z sj_flag].
    split; [reflexivity|]. cbn [sg_no sg_hdr sg_silo sg_size w_no]. split; [auto|]. split; [auto|]. split; [auto|]. split; [auto|]. split; [auto|].
    split; [rewrite len_app; lia|]. split; [auto|]. split; [eapply open_more; eauto|]. split.
    - rewrite <- (firstn_all d) at 1. replace (List.length d) with (N.to_nat (len d)) by (unfold len; lia). eapply zran_call; eauto.
    - split; [auto|]. split; [congruence|]. split; [congruence|]. split; [rewrite len_app; lia|auto]. }
  clearbody sj'. assert (SI : sj_in L sj' = []) by (destruct GO' as (? & ? & ? & H); tauto).
  destruct (skipn (N.to_nat n) ip) as [|c r] eqn:ER.
  - apply al_ret. cbn [fst snd]. split; [auto|]. replace ip with d; [auto|]. unfold d. rewrite <- (firstn_skipn (N.to_nat n) ip) at 2. rewrite ER, app_nil_r. auto.
  - assert (EI : ip = d ++ c :: r) by (rewrite <- ER; symmetry; apply firstn_skipn).
    assert (LC : len ip = n + len (c :: r)) by (rewrite EI, len_app; lia). assert (LC0 : 0 < len (c :: r)) by (rewrite len_cons; lia).
    eapply al_weak; [apply (IH s1 aa sj' (tk ++ d) (c :: r)); auto; [discriminate|rewrite len_app; lia|lia]|]. cbn beta. intros x s2 (X1 & X2). split; [auto|].
    rewrite EI, app_assoc. auto.
Qed.

Lemma feed_first fu s aa sj ip : still s -> (forall k, f_hold s k = OH k) -> f_cache s = f_cache s0 -> cache_ok C s0 aa -> base (sj_hdr L sj) ->
  sj = mkJ L (sj_hdr L sj) None 0 [] None [] [] 0 (z_init L) [] ZNone ->
  ip <> [] -> len ip <= D -> len ip < 2 ^ 18 * N.of_nat fu ->
  alive (feed_loop C L fu aa sj ip) s (fun x s' => cache_ok C s0 (fst x) /\ going s' (snd x) ip).
Proof.
  intros ST QS FC CA BA ES NI LD LF. destruct fu as [|fu]; [lia|].
  pose proof (newseg_live s aa sj ST QS FC CA BA ltac:(rewrite ES; auto)) as NL.
  cbn [feed_loop]. replace (sj_cur L sj) with (@None segment) by (rewrite ES; auto).
  eapply al_bind; [exact NL|]. cbn beta. intros (aa1 & sj1) s1 (CA1 & h & sl & hb & SH & HE & OP & EJ). cbn [fst snd] in *.
  assert (GO : going s1 sj1 []).
  { exists (mkS 1 h sl 0), [], hb. rewrite EJ, ES. cbn [sj_hdr sj_cur sj_ident sj_nseg sj_done sj_pay sj_seg sj_size sj_in sj_z sj_flag sg_no sg_hdr sg_silo sg_size].
    repeat (split; [solve [auto | reflexivity | constructor]|]). auto. }
  pose proof (feed_live (S fu) s1 aa1 sj1 [] ip GO NI ltac:(rewrite len_nil; lia) LF) as X. cbn [feed_loop] in X.
  rewrite EJ in X |- *. cbn [sj_cur bindp] in X |- *. eapply al_weak; [exact X|]. cbn beta. intros x s2 (X1 & X2). rewrite X1. auto.
Qed.

(** * Its end *)

Definition done_at (s : fs) (sj : segjob L) (tk : bytes) : Prop := exists sg h hb i idx len0 st wid,
  sj_cur L sj = None /\ sj_done L sj = [sg] /\ sj_nseg L sj = 1 /\ sj_size L sj = len tk /\ sj_in L sj = [] /\
  sg_hdr sg = h /\ hgood h /\ (exists x, h_id h = firstn (N.to_nat (c_idsize C)) (z_sha L x) /\
     (typ = str "metadata" -> exists ref, refo = Some ref /\ x = ref ++ [10] ++ z_sha L tk ++ [10]) /\
     (typ <> str "metadata" -> x = tk)) /\
  hget h "z" = None /\ hlen prefix h + i <= 3000 /\ 5 <= i /\
  held s (w_no (sg_silo sg)) hb /\ f_silo s0 (w_no (sg_silo sg)) = None /\
  sg_silo sg = mkW (w_no (sg_silo sg)) idx len0 st (hlen prefix h + kz + i) false wid /\
  len hb = len0 /\ st + (hlen prefix h + kz + i) <= len0.

Lemma len_file_write f off d : off + len d <= len f -> len (file_write f off d) = len f.
Proof.
  unfold file_write, len. intros H. rewrite !app_length, firstn_length, skipn_length, app_length, repeat_length. lia.
Qed.

Lemma Wsilo_Finish_live pd s sl h m hb : held s (w_no sl) hb -> open_at pd sl h (m ++ crnlcrnl) hb ->
  (exists xfl r, (xfl = 2 \/ xfl = 4) /\ m = [31; 139; 8; 4; 0; 0; 0; 0; xfl; 3; 12; 0; 65; 97; 8; 0] ++ r) ->
  alive (Wsilo_Finish sl) s (fun sl' s' => (exists hb', held s' (w_no sl) hb' /\ len hb' = len hb) /\
    sl' = mkW (w_no sl) (w_idx sl) (w_len sl) (w_start sl) (w_hlen sl) false (w_wid sl)).
Proof.
  intros HE (pre & hp & idx & wid & EH & H1 & H2 & H3 & H4 & H5 & H6 & E) (xfl & r & HX & EM). unfold Wsilo_Finish.
  assert (E' : w_buf sl = true /\ w_len sl = len hb /\ w_start sl = len pre /\ w_hlen sl = len hp) by (rewrite E; auto).
  destruct E' as (E1 & E2 & E3 & E4). apply al_assert; [auto|]. rewrite E2, E3, E4. cbv zeta.
  set (g := [31; 139; 8; 4; 0; 0; 0; 0; xfl; 3; 12; 0; 65; 97; 8; 0]) in *.
  assert (LG : len g = 16) by reflexivity.
  assert (LL : len hb = len pre + len hp + len m + 24) by (rewrite EH, !len_app; change (len crnlcrnl) with 24; lia).
  assert (LM : len m = 16 + len r) by (rewrite EM, len_app, LG; auto).
  apply al_assert; [lia|]. destruct HE as (ST & HH & HO). apply al_sys. cbn [exec fst snd]. unfold hold_of. rewrite HH.
  assert (RD : file_read hb (len pre + len hp) 16 = g).
  { rewrite EH, EM. rewrite <- !app_assoc. rewrite app_assoc. apply read_at; [rewrite len_app; auto|auto]. }
  rewrite RD. apply al_assert; [rewrite LG; auto|].
  replace (Gzip_GoodAa g) with (@Ok bool true) by (symmetry; rewrite <- (app_nil_r g); apply good_aa; auto). cbn [lift bindp].
  apply al_assert; [auto|]. apply al_sys. cbn [exec fst snd]. apply al_ret. split; [|auto].
  eexists. split; [split; [exact ST|]; cbn [set_hold f_hold]; rewrite upd_same; split; [reflexivity|]; intros k Hk; rewrite upd_other; auto|].
  unfold hold_of. rewrite HH. apply len_file_write. rewrite le_enc_len. lia.
Qed.

Lemma finishseg_live s sj sg tk m hb : sj_done L sj = [] -> sj_nseg L sj = 1 -> sj_ident L sj = None -> sj_seg L sj = tk -> sj_size L sj = len tk ->
  sj_in L sj = [] -> seghd (sg_hdr sg) -> sg_no sg = 1 -> sg_size sg = len tk -> len tk <= D ->
  held s (w_no (sg_silo sg)) hb -> open_at 124 (sg_silo sg) (sg_hdr sg) (m ++ crnlcrnl) hb ->
  (exists xfl r, (xfl = 2 \/ xfl = 4) /\ m = [31; 139; 8; 4; 0; 0; 0; 0; xfl; 3; 12; 0; 65; 97; 8; 0] ++ r) ->
  alive (segjob_finishseg C L sj sg) s (fun sj' s' => done_at s' sj' tk).
Proof.
  intros J1 J2 J3 J4 J5 J6 SH N1 N2 LD HE OP MM. unfold segjob_finishseg. rewrite J4, N1, J3, N2. change (1 =? 1) with true. cbv iota zeta.
  pose proof SH as (G & (I1 & I2) & HT & HR & HZ & HB & HC & LH). pose proof (goodval_sha L ZO tk) as GS.
  destruct (hset_old prefix (sg_hdr sg) "WARC-Block-Digest" _ (str "sha256:" ++ z_sha L tk) G eq_refl GS HB) as (h1 & E1 & G1 & D1 & GG1 & LL1).
  rewrite E1. cbn [bindp]. assert (HC1 : hget h1 "Content-Length" = Some (str "00" ++ dec (c_max C))) by (rewrite GG1; names; auto).
  destruct (hset_old prefix h1 "Content-Length" _ (dec (len tk)) G1 eq_refl (goodval_dec _) HC1) as (h2 & E2 & G2 & D2 & GG2 & LL2).
  rewrite E2. cbn [bindp].
  assert (HT2 : hget h2 "WARC-Type" = Some typ) by (rewrite GG2; names; rewrite GG1; names; auto).
  assert (HR2 : hget h2 "WARC-Refers-To" = refo) by (rewrite GG2; names; rewrite GG1; names; auto).
  destruct (ident_live h2 tk typ HT2) as (h3 & E3).
  { destruct TY as [->|(-> & ref & ->)]; eauto. }
  rewrite E3. cbn [lift bindp]. apply ident_set_cases in E3; auto. destruct E3 as (EF & x & EX & X1 & X2). rewrite HT2, HR2 in X1. rewrite HT2 in X2.
  eapply al_bind; [eapply Wsilo_Finish_live; eauto|]. cbn beta. intros sl' s' ((hb' & HE' & LHB) & ->). apply al_ret.
  destruct OP as (pre & hp & idx & wid & EH & H1 & H2 & H3 & H4 & H5 & H6 & EW).
  assert (LI3 : len (h_id h3) = c_idsize C) by (rewrite EX; apply ident_len; auto; apply (len_sha L ZO)).
  assert (LH3 : hlen prefix h3 + (len (str "00" ++ dec (c_max C))) = hlen prefix (sg_hdr sg) + len (dec (len tk))).
  { rewrite (hlen_eq _ h3), EF, LI3. rewrite (hlen_eq _ h2), D2, D1, I1 in LL2. rewrite !len_str_app, !(len_sha L ZO) in LL1. lia. }
  pose proof (co_max C CO) as MX. pose proof (FIT (w_no (sg_silo sg)) ltac:(lia)) as (RB & RM).
  pose proof (dec_len (len tk) ltac:(lia)) as DL. pose proof (dec_len (c_max C) ltac:(lia)) as DM. rewrite len_str_app in LH3. cbn [String.length] in LH3.
  exists (mkS 1 h3 (mkW (w_no (sg_silo sg)) (w_idx (sg_silo sg)) (w_len (sg_silo sg)) (w_start (sg_silo sg)) (w_hlen (sg_silo sg)) false (w_wid (sg_silo sg))) (len tk)), h3, hb',
    (hlen prefix (sg_hdr sg) + 124 - hlen prefix h3), (w_idx (sg_silo sg)), (w_len (sg_silo sg)), (w_start (sg_silo sg)), (w_wid (sg_silo sg)).
  cbn [sj_hdr sj_cur sj_ident sj_nseg sj_done sj_pay sj_seg sj_size sj_in sj_z sj_flag sg_no sg_hdr sg_silo sg_size w_no w_idx w_len w_start w_hlen w_buf w_wid].
  split; [auto|]. split; [rewrite J1; reflexivity|]. split; [auto|]. split; [auto|]. split; [auto|]. split; [auto|]. split; [unfold hgood; rewrite EF; auto|].
  split. { exists x. split; [auto|]. split; [intros ->; apply X1; auto|]. intros NT. apply X2. congruence. }
  split. { unfold hget, Header_Get. rewrite EF. fold (Header_Get h2 (str "z")). fold (hget h2 "z"). rewrite GG2. names. rewrite GG1. names. auto. }
  split; [lia|]. split; [lia|]. split; [auto|]. split; [auto|].
  assert (EWH : w_hlen (sg_silo sg) = len hp /\ w_len (sg_silo sg) = len hb /\ w_start (sg_silo sg) = len pre) by (rewrite EW; auto).
  destruct EWH as (EWH & EWL & EWS). rewrite EWH, EWL, EWS. split; [f_equal; lia|]. split; [auto|]. rewrite EH, !len_app. lia.
Qed.

Lemma feed_end fu s aa sj tk : going s sj tk -> len tk <= D -> (0 < fu)%nat ->
  alive (feed_loop C L fu aa sj []) s (fun x s' => fst x = aa /\ done_at s' (snd x) tk).
Proof.
  intros GO LD FU. destruct fu as [|fu]; [lia|]. cbn [feed_loop].
  destruct GO as (sg & out & hb & G1 & G2 & G3 & G4 & G5 & G6 & G7 & G8 & G9 & G10 & G11 & G12 & G13 & G14 & G15).
  rewrite G1. cbn [bindp]. rewrite G1. destruct (open_w _ _ _ _ _ G9) as (WL & WB).
  pose proof (room _ _ _ _ tk _ G5 G9 G10 LD) as RM. cbv zeta in RM. remember (Wsilo_GetSpace C (sg_silo sg)) as sp eqn:ES. destruct RM as (R1 & R2 & R3 & R4).
  rewrite (outbuf sg sp) by (auto; lia). cbn [bindp]. set (ob := Z.to_N (sp - 24)).
  replace ((ob <? 52) || (len [] =? 0)) with true by (rewrite orb_comm; auto). rewrite G11. cbn [len List.length]. apply al_assert; [auto|].
  assert (OB : ob <= BUFLEN) by (unfold ob, BUFLEN in *; lia). assert (OB0 : 0 < ob) by (unfold ob; lia).
  destruct (zl_sync L ZL _ _ _ ob G10 OB0) as (z1 & c1 & o1 & EZ & ZB).
  assert (LO1 : len o1 < ob).
  { destruct R1 as [R1|R1].
    - eapply (zo_pend_sync L ZO); [exact G10| |exact EZ]. unfold ob, BUFLEN in *. lia.
    - unfold ob, zmax in *. lia. }
  eapply al_bind.
  { eapply deflate_live; [exact G8|exact WL|exact WB|exact OB|rewrite G11; exact EZ|left; auto]. }
  cbn beta zeta. intros x s1 (H1 & ->). rewrite G11. rewrite skipn_nil.
  set (sg1 := mkS (sg_no sg) (sg_hdr sg) (mkW (w_no (sg_silo sg)) (w_idx (sg_silo sg)) (len (hb ++ o1)) (w_start (sg_silo sg)) (w_hlen (sg_silo sg)) true (w_wid (sg_silo sg))) (sg_size sg)).
  assert (OP1 : open_at 124 (sg_silo sg1) (sg_hdr sg1) (out ++ o1) (hb ++ o1)) by (eapply open_more; [exact G9|reflexivity]).
  assert (R1' : exists sp1, Wsilo_GetSpace C (sg_silo sg1) = sp1 /\ (2000 <= sp1 <= Z.of_N BUFLEN)%Z /\
            (sp1 = Z.of_N BUFLEN \/ sp1 = Z.of_N (c_max C) - Z.of_N (len (hb ++ o1)))%Z).
  { eexists. split; [reflexivity|]. unfold Wsilo_GetSpace, sg1. cbn [w_buf w_len sg_silo]. rewrite len_app. unfold zmax, BUFLEN in *. destruct (_ <? _)%Z eqn:X; lia. }
  destruct R1' as (sp1 & ES1 & RS1 & RS2). rewrite (outbuf sg1 sp1) by (auto; lia). cbn [bindp]. set (ob1 := Z.to_N (sp1 - 24)).
  assert (OBB : ob1 <= BUFLEN) by (unfold ob1, BUFLEN in *; lia). assert (OB1 : 0 < ob1) by (unfold ob1; lia).
  destruct (zl_finish L ZL _ _ _ ob z1 c1 o1 ob1 G10 EZ LO1 OB1) as (z2 & c2 & o2 & rc & EZ2 & NRC & ZB2).
  assert (LO2 : len o2 < ob1).
  { destruct RS2 as [R|R].
    - eapply (zo_pend_fin L ZO); [exact G10|exact EZ|exact LO1| |exact EZ2]. unfold ob1, BUFLEN in *. lia.
    - rewrite len_app in R. unfold ob1, zmax in *. lia. }
  assert (RC : rc = ZEnd).
  { destruct rc; auto; [|congruence]. apply (zo_finish L ZO) in EZ2. lia. }
  subst rc. destruct (zl_stream L ZL _ _ _ _ _ _ _ _ _ _ _ G10 EZ LO1 EZ2) as (xfl & r & HX & EM).
  eapply al_bind.
  { eapply (deflate_live s1 _ sg1 ob1 ZFinish (hb ++ o1)); cbn [sj_z sj_in]; [exact H1|reflexivity|reflexivity|exact OBB|exact EZ2|right; auto]. }
  cbn beta zeta. intros x s2 (H2 & ->). cbn [sj_hdr sj_ident sj_nseg sj_done sj_pay sj_seg sj_size sj_in sj_z sj_flag]. rewrite skipn_nil.
  set (sg2 := mkS (sg_no sg1) _ _ _).
  assert (OP2 : open_at 124 (sg_silo sg2) (sg_hdr sg2) ((out ++ o1) ++ o2) ((hb ++ o1) ++ o2)) by (eapply open_more; [exact OP1|reflexivity]).
  apply al_assert.
  { pose proof (space_ge (sg_silo sg2) 25 eq_refl) as SP. unfold sg2 in SP |- *. cbn [sg_silo w_len] in SP |- *. unfold BUFLEN in SP.
    assert (LL : len ((hb ++ o1) ++ o2) + 25 <= c_max C) by (rewrite !len_app; unfold zmax in *; lia). lia. }
  eapply al_bind.
  { apply (store_live s2 (w_no (sg_silo sg)) _ ((hb ++ o1) ++ o2)); [exact H2|reflexivity|reflexivity|reflexivity|vm_compute; split; congruence]. }
  cbn beta. intros sl3 s3 (H3 & E3). subst sl3.
  assert (OP3 : open_at 124 (mkW (w_no (sg_silo sg)) (w_idx (sg_silo sg2)) (len (((hb ++ o1) ++ o2) ++ crnlcrnl)) (w_start (sg_silo sg2)) (w_hlen (sg_silo sg2)) true (w_wid (sg_silo sg2)))
     (sg_hdr sg2) (((out ++ o1) ++ o2) ++ crnlcrnl) (((hb ++ o1) ++ o2) ++ crnlcrnl)) by (eapply open_more; [exact OP2|reflexivity]).
  eapply al_bind.
  { eapply finishseg_live with (tk := tk); cbn [sj_hdr sj_ident sj_nseg sj_done sj_pay sj_seg sj_size sj_in sj_z sj_flag sg_hdr sg_silo sg_no sg_size];
      [exact G2|exact G3|exact G4|exact G12|exact G14|reflexivity|exact G5|exact G6|exact G7|exact LD|exact H3|exact OP3|].
    exists xfl, r. split; [auto|]. rewrite <- app_assoc. exact EM. }
  cbn beta. intros sj4 s4 DA. assert (SI : sj_in L sj4 = []) by (destruct DA as (? & ? & ? & ? & ? & ? & ? & ? & H); tauto). rewrite SI. apply al_ret. auto.
Qed.

(** * Commit *)

Hypothesis FNO : forall m, OH m = None.

Lemma silo_some n b w : f_silo s0 n = Some (b, w) -> 0 < len b.
Proof.
  intros F. destruct AO as (A & _). specialize (A n). rewrite QU, F in A. destruct A as (w0 & l & es & LY & _).
  inversion LY as [|? r ? ? ? R]; subst. destruct R as (H1 & B & -> & _). rewrite !len_app. change (len crnlcrnl) with 24. lia.
Qed.

Lemma held_cache s n hb c : held s n hb -> held (mkFs (f_silo s) (f_hold s) (f_idx s) c (f_clock s)) n hb.
Proof. intros H. exact H. Qed.

Lemma idx_more (l : list ixent) e : l ++ [e] <> l.
Proof. intros E. apply (f_equal (@List.length ixent)) in E. rewrite app_length in E. cbn [List.length] in E. lia. Qed.

Lemma attempt_live s n hb aa sl sn v id : held s n hb -> sn <> n ->
  alive (silo_attempt_append C aa sl sn v id) s
    (fun x s' => (snd x <> AppDone -> held s' n hb) /\
      (snd x = AppDone -> f_idx s' <> f_idx s0 /\ forall k, f_silo s0 k = None -> f_silo s' k = None) /\
      (snd x = AppNo -> forall b, f_silo s0 sn = Some (b, true) -> c_max C < len b + (len v + (w_len sl - (w_start sl + w_hlen sl)))) /\
      (snd x = AppStop -> exists b, f_silo s0 sn = Some (b, false))).
Proof.
  intros H NS. unfold silo_attempt_append. apply al_sys. cbn [exec fst snd]. pose proof H as ((S1 & _) & _). rewrite S1.
  destruct (f_silo s0 sn) as [[b w]|] eqn:F; [|apply al_ret; cbn [snd]; split; [auto|]; split; [discriminate|]; split; discriminate].
  eapply al_bind with (Q := fun _ s' => held s' n hb).
  { destruct (sn =? fst aa); [|apply al_ret; auto]. unfold WriteCache. apply al_sys. cbn [exec fst snd]. apply al_ret. apply held_cache. auto. }
  clear aa. cbn beta. intros aa s1 H1. destruct w; cbn [negb]; [|apply al_ret; cbn [snd]; split; [auto|]; split; [discriminate|]; split; [discriminate|eauto]].
  eapply al_bind with (Q := fun _ s' => held s' n hb).
  { destruct (andb _ _); [|apply al_ret; auto]. unfold WriteCache. apply al_sys. cbn [exec fst snd]. apply al_ret. apply held_cache. auto. }
  clear aa. cbn beta. intros aa s2 H2. destruct (c_max C <? len b + _) eqn:X.
  { apply al_ret. cbn [snd]. split; [auto|]. split; [discriminate|]. split; [|discriminate]. intros _ b1 [= <-]. lia. }
  destruct H2 as ((T1 & T2 & T3) & T4 & T5). apply al_sys. cbn [exec]. rewrite (T5 sn NS), FNO. cbn [fst snd negb].
  apply al_sys. cbn [exec fst snd set_hold f_silo]. rewrite T1, F. cbn [negb].
  apply al_sys. cbn [exec fst snd set_hold f_silo]. rewrite T1, F. cbn [negb orb]. rewrite X.
  apply al_sys. cbn [exec fst snd]. set (pd := file_read _ _ _). clearbody pd.
  apply al_sys. cbn [exec fst snd]. apply al_sys. cbn [exec fst snd set_hold f_silo]. rewrite T1, F. apply al_sys. cbn [exec fst snd].
  unfold silo_of. cbn [set_hold set_silo f_silo]. rewrite upd_same, T1, F. pose proof (silo_some sn b true F). rewrite !len_app.
  apply al_assert; [lia|]. apply al_assert; [lia|]. unfold insert. apply al_sys. cbn [exec fst snd]. apply al_sys. cbn [exec fst snd]. apply al_ret. cbn [snd]. split; [congruence|].
  split; [|split; discriminate]. intros _. cbn [set_hold set_silo f_idx f_silo]. rewrite T2. split; [apply idx_more|].
  intros k Hk. rewrite upd_other; [rewrite ?T1; auto|congruence].
Qed.

Lemma append_live n hb sl v id cnt : forall s aa sn, held s n hb -> sn + N.of_nat cnt <= n \/ cnt = O ->
  alive (append_loop C cnt aa sl sn v id) s (fun x s' =>
    (snd x = false -> held s' n hb /\ forall m b, sn <= m < sn + N.of_nat cnt -> f_silo s0 m = Some (b, true) ->
      (exists k d, sn <= k < m /\ f_silo s0 k = Some (d, false)) \/
      c_max C < len b + (len v + (w_len sl - (w_start sl + w_hlen sl)))) /\
    (snd x = true -> f_idx s' <> f_idx s0 /\ forall k, f_silo s0 k = None -> f_silo s' k = None)).
Proof.
  induction cnt as [|cnt IH]; intros s aa sn H HN; cbn [append_loop].
  { apply al_ret. cbn [snd]. split; [intros _; split; [auto|intros; lia]|discriminate]. }
  eapply al_bind; [apply (attempt_live s n hb); [auto|lia]|]. cbn beta. intros (aa1 & r) s1 (H1 & H2 & H3 & H4). cbn [snd] in H1, H2, H3, H4.
  destruct r.
  - apply al_ret. cbn [snd]. split; [congruence|auto].
  - eapply al_weak; [apply IH; [apply H1; discriminate|lia]|]. cbn beta. intros x s2 (X1 & X2). split; [|auto]. intros E. destruct (X1 E) as (Y1 & Y2).
    split; [auto|]. intros m b Hm F. destruct (N.eq_dec m sn) as [->|NE]; [right; auto|].
    destruct (Y2 m b ltac:(lia) F) as [(k & d & K1 & K2)|Y]; [left; exists k, d; split; [lia|auto]|auto].
  - apply al_ret. cbn [snd]. split; [|discriminate]. intros _. split; [apply H1; discriminate|]. intros m b Hm F.
    destruct (H4 eq_refl) as (d & F2). left. exists sn, d. split; [|auto]. assert (m <> sn) by congruence. lia.
Qed.

Lemma Wsilo_Commit_live s aa sl h id hb i idx len0 st wid : held s (w_no sl) hb -> f_silo s0 (w_no sl) = None -> cache_ok C s0 aa ->
  hgood h -> idlen h -> hget h "z" = None -> hlen prefix h + i <= 3000 -> 5 <= i ->
  sl = mkW (w_no sl) idx len0 st (hlen prefix h + kz + i) false wid -> len hb = len0 -> st + (hlen prefix h + kz + i) <= len0 ->
  alive (Wsilo_Commit C L aa sl h false id None) s (fun _ s' => f_idx s' <> f_idx s0 /\ tight C s0 s' id).
Proof.
  intros HE FN CA G (I1 & I2) HZ LH I5 E LB LS. unfold Wsilo_Commit.
  assert (EB : w_buf sl = false /\ w_hlen sl = hlen prefix h + kz + i /\ w_len sl = len0 /\ w_start sl = st) by (rewrite E; auto).
  destruct EB as (EB & EL & EN & ES).
  apply al_assert; [rewrite EB; auto|]. cbn [negb andb].
  eapply al_bind with (Q := fun x s' => (snd x = false -> held s' (w_no sl) hb /\ forall m b, snd aa <= m < w_no sl -> f_silo s0 m = Some (b, true) ->
      (exists k d, snd aa <= k < m /\ f_silo s0 k = Some (d, false)) \/ c_max C < len b + (len0 - st) + 160) /\
    (snd x = true -> f_idx s' <> f_idx s0 /\ forall k, f_silo s0 k = None -> f_silo s' k = None)).
  { destruct (0 <? w_no sl) eqn:W0; [|apply al_ret; cbn [snd]; split; [intros _; split; [auto|intros; lia]|discriminate]]. cbn [assert bindp].
    destruct (hser_live 9 h G I2) as (v & EV & LV & _); [lia|]. rewrite EV. cbn [bindp].
    eapply al_weak; [apply (append_live (w_no sl) hb); [auto|lia]|]. cbn beta. intros x s1 (X1 & X2). split; [|auto]. intros EX. destruct (X1 EX) as (Y1 & Y2).
    split; [auto|]. intros m b Hm F. destruct (Y2 m b ltac:(lia) F) as [Y|Y]; [auto|]. right. rewrite EN, ES, EL in Y. lia. }
  cbn beta. intros (aa1 & dn) s1 (H1 & H2). cbn [snd] in H1, H2. destruct dn.
  { unfold wsilo_delete. apply al_sys. apply al_ret. cbn [exec fst set_hold f_idx]. destruct (H2 eq_refl) as (X1 & X2). split; [auto|].
    intros n b' w' F1 F2. cbn [set_hold f_silo] in F2. rewrite X2 in F2; auto. discriminate. }
  clear H2.
  destruct (H1 eq_refl) as (H2 & TI). clear H1.
  destruct (hser_live 0 h G I2) as (v & EV & LV & LV2); [lia|]. rewrite EV. cbn [bindp]. rewrite (stored_len h G I2) in LV2 by lia.
  rewrite EL. replace (Z.of_N (hlen prefix h + kz + i) - Z.of_N (len v))%Z with (Z.of_N i) by lia.
  replace (0 <? Z.of_N i)%Z with true by lia. replace (5 <=? Z.of_N i)%Z with true by lia. cbn [assert bindp].
  assert (GV : goodval (repeat 95 (Z.to_nat (Z.of_N i - 5)))).
  { apply goodval_repeat. apply goodb_val. reflexivity. }
  destruct (hset_new prefix h "z" _ G eq_refl GV HZ) as (h2 & E2 & G2 & D2 & _ & LL). rewrite E2. cbn [bindp].
  unfold Header_Len in LL. assert (LR : len (repeat 95 (Z.to_nat (Z.of_N i - 5))) = i - 5) by (unfold len; rewrite repeat_length; lia).
  rewrite LR, len_str in LL. cbn [String.length] in LL. assert (LL2 : hlen prefix h2 = hlen prefix h + i) by lia.
  destruct (hser_live 0 h2 G2) as (v2 & EV2 & _ & LV3); [rewrite D2; auto|lia|]. rewrite EV2. cbn [bindp].
  rewrite (stored_len h2 G2) in LV3 by (rewrite ?D2; auto; lia). apply al_assert; [rewrite LV3; lia|].
  apply al_sys. cbn [exec fst snd]. cbn [bindp]. unfold insert. apply al_sys. cbn [exec fst snd].
  unfold Wsilo_Install, insert, wsilo_delete. apply al_sys. cbn [exec fst snd]. apply al_sys. destruct H2 as ((S1 & S2 & _) & HH & _).
  cbn [exec set_hold f_silo]. rewrite S1, FN. cbn [fst snd]. apply al_assert; [auto|].
  unfold hold_of. cbn [set_hold f_hold]. rewrite HH, !upd_same. set (hb2 := file_write hb (w_start sl) v2).
  assert (LB2 : len hb2 = len0) by (unfold hb2; rewrite len_file_write; [auto|rewrite ES; lia]).
  eapply al_bind with (Q := fun _ s' => exists e1 e2, f_idx s' = (f_idx s0 ++ [e1]) ++ [e2] /\ e_silo e1 = w_no sl /\ e_off e1 = st /\ e_key e1 = pad 24 id /\
     f_silo s' = upd (f_silo s0) (w_no sl) (Some (hb2, true))).
  { destruct (w_no sl =? fst aa1); [unfold WriteCache; apply al_sys|]; apply al_ret; cbn [exec fst set_hold set_silo f_idx f_silo]; rewrite ?S1, ?S2;
      eexists; eexists; (split; [reflexivity|]); cbn [ideal e_silo e_off e_key]; auto. }
  intros a s2 (e1 & e2 & N1 & N2 & N3 & N4 & N5). apply al_sys. apply al_ret. cbn [exec fst set_hold f_idx]. split.
  { rewrite N1. intros X. apply (f_equal (@List.length ixent)) in X. rewrite !app_length in X. cbn [List.length] in X. lia. }
  intros n b' w' F1 F2. cbn [set_hold f_silo] in F2. rewrite N5 in F2. destruct (N.eq_dec n (w_no sl)) as [->|NE]; [|rewrite upd_other in F2; congruence].
  rewrite upd_same in F2. injection F2 as <- <-. exists e1. cbn [set_hold f_idx]. rewrite N1, N3, LB2. split; [rewrite !in_app_iff; cbn [In]; auto|].
  split; [auto|]. split; [auto|]. split; [lia|]. intros m b Hm F PR. destruct CA as (CA1 & CA2 & CA3 & CA4).
  assert (FW : fst aa <= w_no sl). { destruct (N.le_gt_cases (fst aa) (w_no sl)) as [|LT]; [auto|]. exfalso. apply (CA3 _ LT). auto. }
  destruct (N.lt_ge_cases m (snd aa)) as [LT|GE].
  - right. destruct (CA4 m LT) as (b1 & w1 & F3 & B1). rewrite F in F3. injection F3 as <- <-. lia.
  - left. destruct (TI m b ltac:(lia) F) as [(k & d & K1 & K2)|Y]; [|auto]. specialize (PR k d false ltac:(lia) K2). discriminate.
Qed.
End Live.
