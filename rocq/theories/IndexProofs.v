(* Lemmas about IndexModel.v: identifiers, record encoding, bucket table,
   merge and scan. *)
From Coq Require Import List NArith ZArith Bool Lia Sorting.Sorted Sorting.Permutation.
From Coq Require Import ZifyBool ZifyNat ZifyN.
From Verif Require Import Base BaseLemmas IndexModel IndexSpec.
Ltac Zify.zify_post_hook ::= Z.div_mod_to_equations.
Open Scope N_scope.

(** * Identifiers *)

Lemma hex_not_sep c : is_hex c = true -> ((c =? 58) || (c =? 47)) = false.
Proof.
  unfold is_hex, is_digit. intros H.
  destruct (c =? 58) eqn:E1.
  { apply N.eqb_eq in E1; subst. discriminate. }
  destruct (c =? 47) eqn:E2; auto.
  apply N.eqb_eq in E2; subst. discriminate.
Qed.

Lemma forallb_hexstr s : forallb is_hex s = true <-> hexstr s.
Proof. unfold hexstr. rewrite forallb_forall, Forall_forall. tauto. Qed.

Lemma existsb_sep s : existsb (fun c => (c =? 58) || (c =? 47)) s = true -> ~ hexstr s.
Proof.
  intros H Hx. apply existsb_exists in H. destruct H as (c & Hc & E).
  rewrite (hex_not_sep c) in E. discriminate.
  unfold hexstr in Hx; rewrite Forall_forall in Hx; auto.
Qed.

Lemma valid_core prefix id_size id nid :
  IDX_Valid_Id prefix id_size id = IdOk nid <->
  nid = strip_prefix prefix id /\ hexstr nid /\ len nid = id_size.
Proof.
  unfold IDX_Valid_Id. set (s := strip_prefix prefix id). split.
  - destruct (existsb _ s) eqn:E1; [discriminate|].
    destruct (forallb is_hex s) eqn:E2; simpl; [|discriminate].
    destruct (len s <? id_size) eqn:E3; [discriminate|].
    destruct (id_size <? len s) eqn:E4; [discriminate|].
    intros H; injection H as <-. repeat split; auto.
    + apply forallb_hexstr; auto.
    + apply N.ltb_ge in E3, E4. lia.
  - intros (-> & H1 & H2).
    destruct (existsb _ s) eqn:E1. { apply existsb_sep in E1; tauto. }
    apply forallb_hexstr in H1. rewrite H1. simpl.
    rewrite H2, N.ltb_irrefl. auto.
Qed.

Lemma is_hex_lower c : is_hex (to_lower c) = is_hex c.
Proof.
  unfold to_lower. destruct (is_upper c) eqn:E; auto.
  unfold is_upper in E. apply andb_prop in E. destruct E as [E1 E2].
  apply N.leb_le in E1, E2. unfold is_hex, is_digit.
  replace (c + 32 <=? 57) with false by (symmetry; apply N.leb_gt; lia).
  replace (c <=? 57) with false by (symmetry; apply N.leb_gt; lia).
  replace (97 <=? c) with false by (symmetry; apply N.leb_gt; lia).
  replace (97 <=? c + 32) with true by (symmetry; apply N.leb_le; lia).
  replace (65 <=? c) with true by (symmetry; apply N.leb_le; lia).
  replace (c + 32 <=? 70) with false by (symmetry; apply N.leb_gt; lia).
  rewrite !andb_false_r. simpl. rewrite orb_false_r.
  destruct (c <=? 70) eqn:E.
  - apply N.leb_le in E. apply N.leb_le. lia.
  - apply N.leb_gt in E. apply N.leb_gt. lia.
Qed.

Lemma valid_id_correct prefix id_size id nid :
  ~ hexstr prefix ->
  IDX_Valid_Id prefix id_size id = IdOk nid <-> good_id prefix id_size id nid.
Proof.
  intros Hp. rewrite valid_core. unfold good_id, strip_prefix, ncaseeq.
  rewrite firstn_all. split.
  - intros (H & H1 & H2). repeat split; auto.
    destruct (caseeq _ _) eqn:E; [right|left; auto].
    apply caseeq_true in E. exists (firstn (length prefix) id). split; auto.
    subst nid. symmetry; apply firstn_skipn.
  - intros (H1 & H2 & H). split; [|auto].
    destruct H as [-> | (p & Hp1 & ->)].
    + destruct (caseeq _ _) eqn:E; auto. exfalso. apply Hp.
      apply caseeq_true in E.
      assert (Hl : hexstr (lower prefix)).
      { rewrite <- E. unfold hexstr, lower. apply Forall_map.
        apply Forall_forall. intros c Hc. rewrite is_hex_lower.
        unfold hexstr in H1. rewrite Forall_forall in H1. apply H1.
        rewrite <- (firstn_skipn (length prefix) nid). apply in_or_app; auto. }
      unfold hexstr, lower in *. rewrite Forall_map in Hl.
      eapply Forall_impl; [|exact Hl]. intros c. simpl. rewrite is_hex_lower. auto.
    + assert (Hl : length p = length prefix).
      { rewrite <- (lower_length p), <- (lower_length prefix), Hp1. auto. }
      rewrite <- Hl at 1. rewrite firstn_app, Nat.sub_diag, firstn_all. simpl.
      rewrite app_nil_r.
      replace (caseeq p prefix) with true by (symmetry; apply caseeq_true; auto).
      rewrite <- Hl, skipn_app, Nat.sub_diag, skipn_all. auto.
Qed.

(** * Hex and binary keys *)

Definition hexs (l : bytes) : bytes :=
  flat_map (fun b => [hexdig (b / 16); hexdig (b mod 16)]) l.

Lemma hexs_app a b : hexs (a ++ b) = hexs a ++ hexs b.
Proof. apply flat_map_app. Qed.

Lemma hexs_length l : length (hexs l) = (2 * length l)%nat.
Proof. induction l; auto. change (hexs (a :: l)) with ([hexdig (a/16); hexdig (a mod 16)] ++ hexs l).
  rewrite app_length, IHl. simpl List.length. lia. Qed.

Lemma hexpad_be_dec l k : isbytes l -> length l = k -> hexpad (2 * k) (be_dec l) = hexs l.
Proof.
  revert k; induction l as [|x l IH] using rev_ind; intros k H L.
  - simpl in L; subst. auto.
  - apply Forall_app in H; destruct H as [H1 H2]. inversion H2; subst.
    rewrite app_length. simpl List.length.
    replace (2 * (length l + 1))%nat with (S (S (2 * length l))) by lia.
    rewrite be_dec_snoc, hexs_app.
    change (hexpad (S (S (2 * length l))) (be_dec l * 256 + x)) with
      ((hexpad (2 * length l) ((be_dec l * 256 + x) / 16 / 16) ++ [hexdig ((be_dec l * 256 + x) / 16 mod 16)])
        ++ [hexdig ((be_dec l * 256 + x) mod 16)]).
    replace ((be_dec l * 256 + x) / 16 / 16) with (be_dec l) by lia.
    replace ((be_dec l * 256 + x) / 16 mod 16) with (x / 16) by lia.
    replace ((be_dec l * 256 + x) mod 16) with (x mod 16) by lia.
    rewrite IH by auto. rewrite <- app_assoc. auto.
Qed.

Lemma hexpad16 l : isbytes l -> length l = 8%nat -> hexpad 16 (be_dec l) = hexs l.
Proof. apply (hexpad_be_dec l 8). Qed.
Lemma hexpad8 l : isbytes l -> length l = 4%nat -> hexpad 8 (be_dec l) = hexs l.
Proof. apply (hexpad_be_dec l 4). Qed.

Lemma hexdig_compare a b : a < 16 -> b < 16 -> (hexdig a ?= hexdig b) = (a ?= b).
Proof.
  intros. unfold hexdig.
  destruct (a <? 10) eqn:E1; destruct (b <? 10) eqn:E2;
  apply N.ltb_lt in E1 || apply N.ltb_ge in E1; apply N.ltb_lt in E2 || apply N.ltb_ge in E2;
  destruct (N.compare_spec a b);
  (apply N.compare_eq_iff || apply N.compare_lt_iff || apply N.compare_gt_iff); lia.
Qed.

Lemma hexs_lex a b : isbytes a -> isbytes b -> length a = length b ->
  lex (hexs a) (hexs b) = lex a b.
Proof.
  revert b; induction a as [|x a IH]; intros [|y b] Ha Hb L; try discriminate; auto.
  inversion Ha; inversion Hb; subst. injection L as L.
  change (hexs (x :: a)) with (hexdig (x / 16) :: hexdig (x mod 16) :: hexs a).
  change (hexs (y :: b)) with (hexdig (y / 16) :: hexdig (y mod 16) :: hexs b).
  cbn [lex]. rewrite !hexdig_compare by lia. rewrite IH by auto.
  destruct (N.compare_spec (x / 16) (y / 16)); destruct (N.compare_spec (x mod 16) (y mod 16));
  destruct (N.compare_spec x y); auto; try lia.
Qed.

Lemma hexs_inj a b : isbytes a -> isbytes b -> length a = length b -> hexs a = hexs b -> a = b.
Proof. intros. apply lex_eq. rewrite <- hexs_lex by auto. apply lex_eq; auto. Qed.

Lemma hexs_firstn n l : firstn (2 * n) (hexs l) = hexs (firstn n l).
Proof.
  revert l; induction n; intros [|x l]; auto.
  replace (2 * S n)%nat with (S (S (2 * n))) by lia.
  cbn [firstn]. change (hexs (x :: l)) with (hexdig (x / 16) :: hexdig (x mod 16) :: hexs l).
  cbn [firstn]. rewrite IHn. auto.
Qed.

Lemma hexs_zeros n : hexs (repeat 0 n) = repeat 48 (2 * n).
Proof.
  induction n; auto. replace (2 * S n)%nat with (S (S (2 * n))) by lia.
  change (hexs (repeat 0 (S n))) with (48 :: 48 :: hexs (repeat 0 n)). rewrite IHn. auto.
Qed.

Lemma hexs_lower l : isbytes l -> lower (hexs l) = hexs l.
Proof.
  induction 1; auto.
  change (hexs (x :: l)) with (hexdig (x / 16) :: hexdig (x mod 16) :: hexs l).
  cbn [lower map]. fold (lower (hexs l)). rewrite IHForall, !to_lower_hexdig by lia. auto.
Qed.

Lemma idx_hex_digit_ok c : is_hex c = true ->
  exists d, idx_hex_digit c = Ok d /\ d < 16 /\ hexdig d = to_lower c.
Proof.
  unfold is_hex, is_digit, idx_hex_digit, to_lower, is_upper, hexdig.
  destruct ((48 <=? c) && (c <=? 57)) eqn:E1.
  { intros _. exists (c - 48). split; auto. apply andb_prop in E1. destruct E1 as [A B].
    apply N.leb_le in A, B. split; [lia|].
    replace (65 <=? c) with false by (symmetry; apply N.leb_gt; lia). simpl.
    replace (c - 48 <? 10) with true by (symmetry; apply N.ltb_lt; lia). lia. }
  destruct ((97 <=? c) && (c <=? 102)) eqn:E2.
  { intros _. exists (10 + c - 97). split; auto. apply andb_prop in E2. destruct E2 as [A B].
    apply N.leb_le in A, B. split; [lia|].
    replace (c <=? 90) with false by (symmetry; apply N.leb_gt; lia). rewrite andb_false_r.
    replace (10 + c - 97 <? 10) with false by (symmetry; apply N.ltb_ge; lia). lia. }
  simpl. intros E3. rewrite E3. exists (10 + c - 65). split; auto.
  apply andb_prop in E3. destruct E3 as [A B].
  apply N.leb_le in A, B. split; [lia|].
  replace (65 <=? c) with true by (symmetry; apply N.leb_le; lia).
  replace (c <=? 90) with true by (symmetry; apply N.leb_le; lia). simpl.
  replace (10 + c - 65 <? 10) with false by (symmetry; apply N.ltb_ge; lia). lia.
Qed.

Lemma idx_key_bin_nil n : idx_key_bin n [] = Ok (repeat 0 n).
Proof. induction n; auto. cbn [idx_key_bin]. rewrite IHn. auto. Qed.

Lemma repeat_snoc_firstn {A} (x : A) n m : (n <= m)%nat -> firstn n (repeat x m) = repeat x n.
Proof.
  revert m; induction n; intros [|m] H; auto; [lia|]. simpl. f_equal. apply IHn. lia.
Qed.

Lemma firstn_app_le {A} n (a b : list A) : (n <= length a)%nat -> firstn n (a ++ b) = firstn n a.
Proof. intros. rewrite firstn_app. replace (n - length a)%nat with 0%nat by lia. simpl. apply app_nil_r. Qed.

Lemma skipn_app_le {A} n (a b : list A) : (n <= length a)%nat -> skipn n (a ++ b) = skipn n a ++ b.
Proof. intros. rewrite skipn_app. replace (n - length a)%nat with 0%nat by lia. auto. Qed.

Lemma idx_key_bin_ok : forall n k, hexstr k ->
  exists kb, idx_key_bin n k = Ok kb /\ length kb = n /\ isbytes kb /\
             hexs kb = pad (2 * n) k.
Proof.
  assert (Hnil : forall n, pad (2 * n) [] = hexs (repeat 0 n)).
  { intros. unfold pad. simpl lower. rewrite app_nil_l, repeat_snoc_firstn, hexs_zeros by lia. auto. }
  assert (Hz : forall n, isbytes (repeat 0 n)).
  { induction n; constructor; auto. lia. }
  induction n as [|n IH]; intros k Hk.
  { exists []. repeat split; auto. constructor. }
  destruct k as [|a [|b k]].
  - exists (repeat 0 (S n)). rewrite idx_key_bin_nil. repeat split; auto.
    + apply repeat_length.
  - inversion Hk; subst. destruct (idx_hex_digit_ok a) as (d & E & Hd & Hh); auto.
    exists (d * 16 :: repeat 0 n). cbn [idx_key_bin bind]. rewrite E, idx_key_bin_nil. cbn [bind].
    repeat split.
    + simpl. rewrite repeat_length. auto.
    + constructor; [lia|]. apply Hz.
    + change (hexs (d * 16 :: repeat 0 n)) with (hexdig (d * 16 / 16) :: hexdig (d * 16 mod 16) :: hexs (repeat 0 n)).
      replace (d * 16 / 16) with d by lia. replace (d * 16 mod 16) with 0 by lia.
      unfold pad. replace (2 * S n)%nat with (S (S (2 * n))) by lia.
      cbn [lower map app]. cbn [firstn repeat]. rewrite Hh, hexs_zeros. f_equal. f_equal.
      symmetry. apply (repeat_snoc_firstn 48 (2 * n) (S (2 * n))). lia.
  - inversion Hk as [|? ? Ha Hk']; subst. inversion Hk' as [|? ? Hb Hk'']; subst.
    destruct (idx_hex_digit_ok a) as (d & E & Hd & Hh); auto.
    destruct (idx_hex_digit_ok b) as (d' & E' & Hd' & Hh'); auto.
    destruct (IH k) as (kb & E2 & L & B & HH); auto.
    exists (d * 16 + d' :: kb). cbn [idx_key_bin]. rewrite E, E', E2. cbn [bind].
    repeat split.
    + simpl; lia.
    + constructor; auto. lia.
    + change (hexs (d * 16 + d' :: kb)) with (hexdig ((d * 16 + d') / 16) :: hexdig ((d * 16 + d') mod 16) :: hexs kb).
      replace ((d * 16 + d') / 16) with d by lia. replace ((d * 16 + d') mod 16) with d' by lia.
      rewrite HH, Hh, Hh'. unfold pad. replace (2 * S n)%nat with (S (S (2 * n))) by lia.
      cbn [lower map app firstn]. f_equal. f_equal.
      fold (lower k). rewrite !firstn_app. f_equal.
      rewrite !repeat_snoc_firstn by lia. auto.
Qed.

Lemma pad_length n s : length (pad n s) = n.
Proof. unfold pad. rewrite firstn_length, app_length, repeat_length. lia. Qed.

(** * Records *)

Definition is_rec (r : bytes) : Prop := length r = 32%nat /\ isbytes r.

(* the entry's offset fits int64_t *)
Definition rec_off_ok (r : bytes) : Prop := be_dec (slice 20 8 r) < 2 ^ 63.

Lemma slice_app_l a b x y : (a + b <= length x)%nat -> slice a b (x ++ y) = slice a b x.
Proof.
  intros. unfold slice. rewrite skipn_app_le by lia.
  apply firstn_app_le. rewrite skipn_length. lia.
Qed.

Lemma slice_app_r a b x y : length x = a -> slice a b (x ++ y) = firstn b y.
Proof.
  intros. unfold slice. rewrite skipn_app, H, Nat.sub_diag, skipn_all2 by lia. auto.
Qed.

Lemma slice_exact a b x y z : length x = a -> length y = b -> slice a b (x ++ y ++ z) = y.
Proof.
  intros. rewrite slice_app_r by auto. rewrite firstn_app_le by lia. apply firstn_all2. lia.
Qed.

Lemma idx_record_ok key flags silo offset cont :
  hexstr key -> flags < 2 ^ 32 -> silo < 2 ^ 32 -> offset < 2 ^ 63 ->
  match cont with Some c => hexstr c | None => True end ->
  exists r, idx_record key flags silo offset cont = Ok r /\ is_rec r /\ rec_off_ok r /\
            ent_of_rec r = ideal key flags silo offset cont.
Proof.
  intros Hk Hf Hs Ho Hc. unfold idx_record.
  destruct (idx_key_bin_ok KEYSUMM key Hk) as (kb & E & L & B & HH).
  rewrite E. cbn [bind].
  assert (HC : exists cb, match cont with None => Ok (repeat 0 4) | Some c => idx_key_bin 4 c end = Ok cb /\
     length cb = 4%nat /\ isbytes cb /\ hexs cb = pad 8 (match cont with Some c => c | None => [] end)).
  { destruct cont as [c|].
    - apply (idx_key_bin_ok 4 c Hc).
    - exists (repeat 0 4). repeat split; auto. repeat constructor; lia. }
  destruct HC as (cb & EC & LC & BC & HHC). rewrite EC. cbn [bind].
  eexists. split; [reflexivity|].
  set (r := kb ++ be_enc 4 flags ++ be_enc 4 silo ++ be_enc 8 offset ++ cb).
  assert (S12 : slice 12 4 r = be_enc 4 flags).
  { apply slice_exact; auto. }
  assert (S16 : slice 16 4 r = be_enc 4 silo).
  { unfold r. rewrite (app_assoc kb). apply slice_exact; [|apply be_enc_length].
    rewrite app_length, be_enc_length, L. auto. }
  assert (S20 : slice 20 8 r = be_enc 8 offset).
  { unfold r. rewrite (app_assoc kb), (app_assoc (kb ++ _)). apply slice_exact; [|apply be_enc_length].
    rewrite !app_length, !be_enc_length, L. auto. }
  assert (S28 : slice 28 4 r = cb).
  { unfold r. rewrite (app_assoc kb), (app_assoc (kb ++ _)), (app_assoc ((kb ++ _) ++ _)).
    rewrite slice_app_r. { apply firstn_all2. lia. }
    rewrite !app_length, !be_enc_length, L. auto. }
  assert (S0 : slice 0 8 r = slice 0 8 kb).
  { apply slice_app_l. rewrite L. unfold KEYSUMM. lia. }
  assert (S8 : slice 8 4 r = slice 8 4 kb).
  { apply slice_app_l. rewrite L. unfold KEYSUMM. lia. }
  assert (D20 : be_dec (slice 20 8 r) = offset).
  { rewrite S20, be_dec_enc. apply N.mod_small.
    eapply N.lt_trans; [exact Ho|]. reflexivity. }
  split; [|split].
  - split.
    + unfold r. rewrite !app_length, !be_enc_length, L, LC. auto.
    + unfold r. unfold isbytes in *. rewrite !Forall_app. repeat split; auto; apply be_enc_bytes.
  - unfold rec_off_ok. rewrite D20. auto.
  - unfold ent_of_rec, ideal. rewrite D20, S0, S8, S12, S16, S28. f_equal.
    + rewrite (hexpad16 (slice 0 8 kb)), (hexpad8 (slice 8 4 kb)).
      * rewrite <- hexs_app. change (pad 24 key) with (pad (2 * KEYSUMM) key). rewrite <- HH. f_equal. unfold slice. simpl skipn at 1.
        rewrite (firstn_all2 (n := 4)). { apply firstn_skipn. }
        rewrite skipn_length, L. unfold KEYSUMM. lia.
      * apply isbytes_firstn, isbytes_skipn; auto.
      * unfold slice. rewrite firstn_length, skipn_length, L. auto.
      * apply isbytes_firstn, isbytes_skipn; auto.
      * unfold slice. rewrite firstn_length, skipn_length, L. auto.
    + rewrite be_dec_enc. apply N.mod_small. exact Hf.
    + rewrite be_dec_enc. apply N.mod_small. exact Hs.
    + rewrite (hexpad8 cb) by auto. exact HHC.
Qed.

(* the key of a record in hex *)
Lemma ent_key_hexs r : is_rec r -> e_key (ent_of_rec r) = hexs (firstn 12 r).
Proof.
  intros [L B]. unfold ent_of_rec, e_key.
  rewrite (hexpad16 (slice 0 8 r)), (hexpad8 (slice 8 4 r)).
  - rewrite <- hexs_app. f_equal. unfold slice. simpl skipn at 1.
    rewrite <- (firstn_skipn 8 (firstn 12 r)). f_equal.
    + rewrite firstn_firstn. auto.
    + rewrite (firstn_skipn_comm 4 8 r). auto.
  - apply isbytes_firstn, isbytes_skipn; auto.
  - unfold slice. rewrite firstn_length, skipn_length, L. auto.
  - apply isbytes_firstn, isbytes_skipn; auto.
  - unfold slice. rewrite firstn_length, skipn_length, L. auto.
Qed.

(** * Scanning *)

(* run a callback over a list of entries until it returns non-zero *)
Fixpoint run_cb {S} (func : idx_cb S) (l : list ixent) (s : S) : Z * S :=
  match l with
  | [] => (0%Z, s)
  | e :: l' => let '(i, s') := func s e in
               if (i =? 0)%Z then run_cb func l' s' else (i, s')
  end.

Definition key_ok (key : option bytes) : Prop :=
  match key with Some k => hexstr k | None => True end.

(* boolean version of [asked] *)
Definition askedb (key : option bytes) (e : ixent) : bool :=
  match key with
  | None => true
  | Some k => bytes_eqb (firstn (Nat.min (length k) 24) (e_key e)) (firstn 24 (lower k))
  end.

Lemma iter_key_ok key : key_ok key ->
  exists kp cl, iter_key key = Ok (kp, cl) /\ length kp = 12%nat /\ isbytes kp /\
    cl = match key with Some k => Nat.min (length k) 24 | None => O end /\
    hexs kp = pad 24 (match key with Some k => k | None => [] end).
Proof.
  destruct key as [k|]; intros Hk; cbn [iter_key].
  - replace (forallb is_hex k) with true by (symmetry; apply forallb_hexstr; auto).
    destruct (idx_key_bin_ok KEYSUMM k Hk) as (kb & E & L & B & HH).
    cbn [bind guard]. rewrite E. cbn [bind]. exists kb, (Nat.min (length k) 24). repeat split; auto.
  - exists (repeat 0 KEYSUMM), O. repeat split; auto. repeat constructor; lia.
Qed.

Lemma pad_firstn n m s : (m <= length s)%nat -> (m <= n)%nat -> firstn m (pad n s) = firstn m (lower s).
Proof.
  intros. unfold pad. rewrite firstn_firstn, Nat.min_l by lia.
  apply firstn_app_le. rewrite lower_length. auto.
Qed.

Lemma firstn_min_lower n (k : bytes) : firstn (Nat.min (length k) n) (lower k) = firstn n (lower k).
Proof.
  destruct (le_lt_dec (length k) n).
  - rewrite Nat.min_l, !firstn_all2; auto; rewrite lower_length; lia.
  - rewrite Nat.min_r by lia. auto.
Qed.

(* the C comparison equals the specification's *)
Lemma ncaseeq_asked k r : is_rec r ->
  ncaseeq (Nat.min (length k) 24) (e_key (ent_of_rec r)) k = askedb (Some k) (ent_of_rec r).
Proof.
  intros Hr. unfold ncaseeq, askedb, caseeq, bytes_eqb.
  f_equal.
  - rewrite (ent_key_hexs r Hr). unfold lower. rewrite <- firstn_map. fold (lower (hexs (firstn 12 r))).
    rewrite hexs_lower; auto. apply isbytes_firstn. apply Hr.
  - unfold lower. rewrite <- firstn_map. fold (lower k). apply firstn_min_lower.
Qed.

(* a match in hex implies the byte comparison is equal *)
Lemma asked_bytes key kp r m : is_rec r -> key_ok key -> length kp = 12%nat -> isbytes kp ->
  hexs kp = pad 24 (match key with Some k => k | None => [] end) ->
  (2 * m <= match key with Some k => Nat.min (length k) 24 | None => O end)%nat ->
  askedb key (ent_of_rec r) = true -> firstn m r = firstn m kp.
Proof.
  intros Hr Hk L B HH Hm Ha. destruct key as [k|].
  2:{ assert (m = 0)%nat by lia. subst; auto. }
  unfold askedb in Ha. apply bytes_eqb_true in Ha.
  rewrite (ent_key_hexs r Hr) in Ha. rewrite <- firstn_min_lower in Ha.
  apply (f_equal (firstn (2 * m))) in Ha. rewrite !firstn_firstn, Nat.min_l in Ha by lia.
  rewrite <- (pad_firstn 24) in Ha by lia. rewrite <- HH in Ha.
  rewrite !hexs_firstn in Ha. rewrite firstn_firstn, Nat.min_l in Ha by lia.
  destruct Hr as [Lr Br].
  apply hexs_inj in Ha; auto using isbytes_firstn.
  rewrite !firstn_length, L, Lr. lia.
Qed.

Lemma scan_unsorted {S} (func : idx_cb S) key kp cl recs s :
  Forall is_rec recs -> Forall rec_off_ok recs -> key_ok key ->
  length kp = 12%nat -> isbytes kp ->
  cl = match key with Some k => Nat.min (length k) 24 | None => O end ->
  hexs kp = pad 24 (match key with Some k => k | None => [] end) ->
  idx_scan func false key kp cl recs s =
  Ok (run_cb func (filter (askedb key) (map ent_of_rec recs)) s).
Proof.
  intros Hr Ho Hk L B Hcl HH. revert s.
  induction recs as [|r recs IH]; intros s; auto.
  subst.
  apply Forall_cons_iff in Hr; destruct Hr as [H1 H2]. apply Forall_cons_iff in Ho; destruct Ho as [H5 H6].
  cbn [idx_scan map filter].
  replace (Nat.eqb (length r) 32) with true by (symmetry; apply Nat.eqb_eq; apply H1). cbn [negb].
  assert (Hskip : match key with None => false | Some k => negb (ncaseeq (match key with Some k => Nat.min (length k) 24 | None => O end) (e_key (ent_of_rec r)) k) end
            = negb (askedb key (ent_of_rec r))).
  { destruct key as [k|]; auto. rewrite ncaseeq_asked; auto. }
  set (j := if Nat.leb 2 _ then lex _ _ else Eq).
  destruct (askedb key (ent_of_rec r)) eqn:Ea.
  - assert (j = Eq).
    { unfold j. destruct (Nat.leb 2 _); auto. apply lex_eq.
      eapply asked_bytes; eauto.
      match goal with |- (2 * Nat.div2 ?c <= _)%nat => pose proof (Nat.div2_odd c); destruct (Nat.odd c); simpl Nat.b2n in *; lia end. }
    rewrite H. rewrite Hskip. cbn [negb].
    replace (2 ^ 63 <=? e_off (ent_of_rec r)) with false
      by (symmetry; apply N.leb_gt; unfold rec_off_ok in H5; exact H5).
    cbn [run_cb]. destruct (func s (ent_of_rec r)) as [i s'].
    destruct (i =? 0)%Z; auto.
  - rewrite <- IH by auto. destruct j; auto. rewrite Hskip. auto.
Qed.

Lemma scan_sorted {S} (func : idx_cb S) key kp cl recs s :
  StronglySorted lexle recs ->
  Forall is_rec recs -> Forall rec_off_ok recs -> key_ok key ->
  length kp = 12%nat -> isbytes kp ->
  cl = match key with Some k => Nat.min (length k) 24 | None => O end ->
  hexs kp = pad 24 (match key with Some k => k | None => [] end) ->
  idx_scan func true key kp cl recs s =
  Ok (run_cb func (filter (askedb key) (map ent_of_rec recs)) s).
Proof.
  intros Hs Hr Ho Hk L B Hcl HH. revert s.
  induction recs as [|r recs IH]; intros s; auto.
  inversion Hs as [|? ? Hs' Hall]; subst.
  apply Forall_cons_iff in Hr; destruct Hr as [H1 H2]. apply Forall_cons_iff in Ho; destruct Ho as [H5 H6].
  cbn [idx_scan map filter].
  replace (Nat.eqb (length r) 32) with true by (symmetry; apply Nat.eqb_eq; apply H1). cbn [negb].
  assert (Hskip : match key with None => false | Some k => negb (ncaseeq (match key with Some k => Nat.min (length k) 24 | None => O end) (e_key (ent_of_rec r)) k) end
            = negb (askedb key (ent_of_rec r))).
  { destruct key as [k|]; auto. rewrite ncaseeq_asked; auto. }
  set (cl := match key with Some k => Nat.min (length k) 24 | None => O end) in *.
  assert (Hd : (2 * Nat.div2 cl <= cl)%nat).
  { pose proof (Nat.div2_odd cl). destruct (Nat.odd cl); simpl Nat.b2n in *; lia. }
  set (j := if Nat.leb 2 cl then lex _ _ else Eq).
  destruct (askedb key (ent_of_rec r)) eqn:Ea.
  - assert (j = Eq).
    { unfold j. destruct (Nat.leb 2 cl); auto. apply lex_eq.
      eapply asked_bytes; eauto. }
    rewrite H. rewrite Hskip. cbn [negb].
    replace (2 ^ 63 <=? e_off (ent_of_rec r)) with false
      by (symmetry; apply N.leb_gt; unfold rec_off_ok in H5; exact H5).
    cbn [run_cb]. destruct (func s (ent_of_rec r)) as [i s'].
    destruct (i =? 0)%Z; auto.
  - destruct j eqn:Ej.
    + rewrite Hskip. simpl. auto.
    + auto.
    + (* break: nothing later can match *)
      assert (Hnone : filter (askedb key) (map ent_of_rec recs) = []).
      { destruct (filter (askedb key) (map ent_of_rec recs)) as [|e t] eqn:Ef; auto.
        exfalso. assert (Hin : In e (filter (askedb key) (map ent_of_rec recs))) by (rewrite Ef; left; auto).
        apply filter_In in Hin. destruct Hin as [Hin Hma]. apply in_map_iff in Hin.
        destruct Hin as (r' & <- & Hin').
        rewrite Forall_forall in Hall, H2.
        unfold j in Ej. destruct (Nat.leb 2 cl); [|discriminate].
        assert (E : firstn (Nat.div2 cl) r' = firstn (Nat.div2 cl) kp).
        { eapply asked_bytes; eauto. }
        rewrite <- E in Ej. specialize (Hall r' Hin').
        apply (lexle_firstn (Nat.div2 cl)) in Hall. congruence. }
      rewrite Hnone. auto.
Qed.
