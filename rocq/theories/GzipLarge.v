(* Stitching segments of 2^32 bytes or more. *)
From Verif Require Import Base BaseLemmas ListLemmas IndexModel InflateSpec InflateProofs GzipModel GzipSpec GzipProofs.
From Coq Require Import ZifyBool ZifyNat ZifyN Lia.
Open Scope N_scope.

(** * Linear maps on 32 bits as lists of images of single bits *)

Fixpoint mapply (m : list N) (x : N) : N :=
  match m with
  | [] => 0
  | v :: r => N.lxor (if N.odd x then v else 0) (mapply r (N.div2 x))
  end.

Fixpoint ebasis (k : nat) : list N :=
  match k with O => [] | S j => 1 :: map N.double (ebasis j) end.

Definition additive (f : N -> N) : Prop := forall a b, f (N.lxor a b) = N.lxor (f a) (f b).

Lemma additive_0 f : additive f -> f 0 = 0.
Proof. intros H. specialize (H 0 0). rewrite N.lxor_nilpotent in H. rewrite H. apply N.lxor_nilpotent. Qed.

Lemma split_odd x : x = N.lxor (if N.odd x then 1 else 0) (N.double (N.div2 x)).
Proof.
  apply N.bits_inj. intros i. rewrite N.lxor_spec, N.double_spec.
  destruct i as [|p].
  - rewrite N.testbit_even_0, N.bit0_odd. destruct (N.odd x); reflexivity.
  - replace (N.pos p) with (N.succ (N.pred (N.pos p))) by lia. set (j := N.pred (N.pos p)).
    rewrite N.testbit_even_succ by lia. rewrite N.div2_spec, N.shiftr_spec by lia.
    replace (N.testbit (if N.odd x then 1 else 0) (N.succ j)) with false.
    + rewrite xorb_false_l. f_equal. lia.
    + destruct (N.odd x); [|rewrite N.bits_0; auto]. destruct j; auto.
Qed.

Lemma mapply_rep k : forall f, additive f -> forall x, x < 2 ^ N.of_nat k -> mapply (map f (ebasis k)) x = f x.
Proof.
  induction k as [|k IH]; intros f Hf x Hx.
  - assert (x = 0) as -> by (simpl in Hx; lia). rewrite (additive_0 f Hf); auto.
  - cbn [ebasis map mapply]. rewrite map_map. rewrite (IH (fun y => f (N.double y))).
    + rewrite (split_odd x) at 3. rewrite Hf. f_equal. destruct (N.odd x); auto. rewrite (additive_0 f Hf); auto.
    + intros a b. rewrite <- Hf. f_equal. apply N.bits_inj. intros i. rewrite N.lxor_spec, !N.double_spec.
      destruct i as [|p]; [rewrite !N.testbit_even_0; auto|].
      replace (N.pos p) with (N.succ (N.pred (N.pos p))) by lia.
      rewrite !N.testbit_even_succ by lia. rewrite N.lxor_spec. auto.
    + rewrite N.div2_div. apply N.div_lt_upper_bound; [lia|].
      replace (2 * 2 ^ N.of_nat k) with (2 ^ N.of_nat (S k)); auto.
      replace (N.of_nat (S k)) with (N.succ (N.of_nat k)) by lia. apply N.pow_succ_r'.
Qed.

Definition rep (m : list N) (f : N -> N) : Prop := additive f /\ (forall x, x < 2 ^ 32 -> f x < 2 ^ 32) /\ m = map f (ebasis 32).

Lemma ebasis_lt : Forall (fun x => x < 2 ^ 32) (ebasis 32).
Proof. apply Forall_forall. intros x H. vm_compute in H. repeat (destruct H as [<-|H]; [reflexivity|]). contradiction. Qed.

Lemma rep_square m f : rep m f -> rep (map (mapply m) m) (fun x => f (f x)).
Proof.
  intros (A & L & E). split; [|split].
  - intros a b. rewrite A, A. auto.
  - auto.
  - rewrite E at 2. rewrite map_map. apply map_ext_in. intros x Hx.
    pose proof ebasis_lt as EL. rewrite Forall_forall in EL. rewrite E. apply (mapply_rep 32); auto.
Qed.

Fixpoint squares (k : nat) (m : list N) : list N :=
  match k with O => m | S j => squares j (map (mapply m) m) end.
Fixpoint doubles (k : nat) (f : N -> N) : N -> N :=
  match k with O => f | S j => doubles j (fun x => f (f x)) end.

Lemma rep_squares k : forall m f, rep m f -> rep (squares k m) (doubles k f).
Proof. induction k; intros m f H; cbn [squares doubles]; auto. apply IHk. apply rep_square. auto. Qed.

Definition zbyte (c : N) : N := crc_byte c 0.
Lemma zbyte_add : additive zbyte.
Proof. intros a b. unfold zbyte. apply crc_byte_xor. Qed.

Lemma iter_ext {A} (f g : A -> A) : (forall x, f x = g x) -> forall n x, N.iter n f x = N.iter n g x.
Proof.
  intros H n x. induction n using N.peano_ind; [reflexivity|]. rewrite !N.iter_succ, IHn. auto.
Qed.

Lemma doubles_iter k : forall f x, doubles k f x = N.iter (2 ^ N.of_nat k) f x.
Proof.
  induction k as [|k IH]; intros f x; [reflexivity|]. cbn [doubles]. rewrite IH.
  replace (N.of_nat (S k)) with (N.succ (N.of_nat k)) by lia. rewrite N.pow_succ_r'.
  generalize (2 ^ N.of_nat k). intros n. induction n using N.peano_ind; [reflexivity|].
  rewrite N.iter_succ, IHn. replace (2 * N.succ n) with (N.succ (N.succ (2 * n))) by lia. rewrite !N.iter_succ. auto.
Qed.

(* 2^32 zero bytes are one zero byte *)
Lemma zeros_2_32 c : c < 2 ^ 32 -> crc_zeros c (2 ^ 32) = crc_byte c 0.
Proof.
  intros H. unfold crc_zeros.
  assert (R : rep (map zbyte (ebasis 32)) zbyte).
  { split; [apply zbyte_add|]. split; [|reflexivity]. intros x Hx. apply crc_byte_lt; auto. reflexivity. }
  pose proof (rep_squares 32 _ _ R) as (A & L & E).
  change (crc_byte c 0) with (zbyte c). rewrite <- (mapply_rep 32 zbyte zbyte_add c H).
  assert (SQ : squares 32 (map zbyte (ebasis 32)) = map zbyte (ebasis 32)) by (vm_compute; reflexivity).
  rewrite <- SQ, E. rewrite (mapply_rep 32 _ A c H). rewrite doubles_iter. reflexivity.
Qed.

Definition inv_m : list N :=
  [709193467; 1418386934; 2836773868; 2304405913; 3385189747; 1224395943; 2448791886; 4170855645; 709193723;
   1418387446; 2836774892; 2304407961; 3385193843; 1224404135; 2448808270; 4170888413; 709128187; 1418256374;
   2836512748; 2303883673; 3386242419; 1222306983; 2444613966; 4162499805; 725905403; 1451810806; 2903621612;
   2169665945; 3654677875; 1759177895; 3518355790; 2015016157].

Lemma mapply_add m : additive (mapply m).
Proof.
  induction m as [|v m IH]; intros a b; [reflexivity|]. cbn [mapply].
  rewrite !N.div2_spec, N.shiftr_lxor, IH. rewrite <- !N.bit0_odd, N.lxor_spec, !N.bit0_odd.
  set (p := mapply m (N.shiftr a 1)). set (q := mapply m (N.shiftr b 1)).
  destruct (N.odd a), (N.odd b); cbn [xorb]; rewrite ?N.lxor_0_l; auto.
  - rewrite <- N.lxor_assoc, (N.lxor_comm v p), (N.lxor_assoc p v v), N.lxor_nilpotent, N.lxor_0_r. auto.
  - rewrite N.lxor_assoc. auto.
  - rewrite <- !N.lxor_assoc. f_equal. apply N.lxor_comm.
Qed.

Lemma zbyte_fix c : c < 2 ^ 32 -> crc_byte c 0 = c -> c = 0.
Proof.
  intros H E. set (g := fun x => mapply inv_m (N.lxor (zbyte x) x)).
  assert (A : additive g).
  { intros a b. unfold g. rewrite zbyte_add, <- mapply_add. f_equal.
    rewrite !N.lxor_assoc. f_equal. rewrite <- !N.lxor_assoc. f_equal. apply N.lxor_comm. }
  assert (I : g c = c).
  { rewrite <- (mapply_rep 32 g A c H). transitivity (mapply (map (fun x => x) (ebasis 32)) c).
    - f_equal.
    - apply (mapply_rep 32 (fun x => x)); auto. intros a b. auto. }
  rewrite <- I. unfold g. unfold zbyte. rewrite E, N.lxor_nilpotent. reflexivity.
Qed.

Lemma crc_zeros_lt c n : c < 2 ^ 32 -> crc_zeros c n < 2 ^ 32.
Proof. intros H. unfold crc_zeros. apply N.iter_invariant; auto. intros x Hx. apply crc_byte_lt; auto. reflexivity. Qed.

Lemma crc_zeros_add c m n : crc_zeros c (m + n) = crc_zeros (crc_zeros c m) n.
Proof. unfold crc_zeros. rewrite N.add_comm, N.iter_add. reflexivity. Qed.

Lemma crc_byte_inj a b : a < 2 ^ 32 -> b < 2 ^ 32 -> crc_byte a 0 = crc_byte b 0 -> a = b.
Proof.
  intros Ha Hb E.
  assert (J : forall x y, x < 2 ^ 32 -> y < 2 ^ 32 -> crc_step x = crc_step y -> x = y).
  { intros x y Hx Hy. unfold crc_step. intros H.
    assert (T : forall z, z < 2 ^ 32 -> N.testbit (N.div2 z) 31 = false).
    { intros z Hz. rewrite N.div2_spec, N.shiftr_spec by lia. apply (proj1 (bound_bits 32 z) Hz). lia. }
    assert (O : N.testbit x 0 = N.testbit y 0).
    { apply (f_equal (fun z => N.testbit z 31)) in H.
      destruct (N.testbit x 0), (N.testbit y 0); auto; rewrite ?N.lxor_spec, ?T in H by auto; discriminate. }
    assert (D : N.div2 x = N.div2 y).
    { rewrite O in H. destruct (N.testbit y 0); auto.
      apply (f_equal (fun z => N.lxor z 3988292384)) in H. rewrite !N.lxor_assoc, !N.lxor_nilpotent, !N.lxor_0_r in H. auto. }
    rewrite (split_odd x), (split_odd y), D. rewrite !N.bit0_odd in O. rewrite O. auto. }
  assert (K : forall k x y, x < 2 ^ 32 -> y < 2 ^ 32 -> Nat.iter k crc_step x = Nat.iter k crc_step y -> x = y).
  { induction k; intros x y Hx Hy H; auto. unfold Nat.iter in *. cbn [nat_rect] in H. apply IHk; auto.
    apply J in H; auto; apply (iter_lt k); auto. }
  unfold crc_byte in E. rewrite !N.lxor_0_r in E. apply K in E; auto.
Qed.

Lemma crc_zeros_inj n : forall a b, a < 2 ^ 32 -> b < 2 ^ 32 -> crc_zeros a n = crc_zeros b n -> a = b.
Proof.
  induction n using N.peano_ind; intros a b Ha Hb E; auto.
  rewrite !crc_zeros_succ in E. apply IHn in E; try (apply crc_byte_lt; auto; reflexivity).
  apply crc_byte_inj; auto.
Qed.

(** * Two segments, the second one too large *)

Lemma stitch_large comb ps1 d1 ps2 d2 : comb_ok comb -> ok_seg (ps1, d1) -> ok_seg (ps2, d2) ->
  crc32 d1 <> 0 -> 2 ^ 32 <= len d2 < 2 ^ 33 ->
  exists out, stitch_all comb (ps1 ++ ps2) = Ok out /\ gunzip out = None.
Proof.
  intros C (m1 & HP1 & HS1) (m2 & HP2 & HS2) N1 L2. cbn [fst snd] in *.
  pose proof (synced_bytes _ _ HS1) as Hb1. pose proof (synced_bytes _ _ HS2) as Hb2.
  pose proof (crc32_lt _ Hb1) as Lc1. pose proof (crc32_lt _ Hb2) as Lc2.
  unfold stitch_all. rewrite pieces_app.
  destruct (feed_member comb _ _ _ gzip_stitch_new HS1 HP1 eq_refl) as (B1 & t1 & HB1 & E1). rewrite E1. cbn [bind].
  match type of E1 with _ = Ok ?g => destruct (feed_member comb _ _ _ g HS2 HP2 eq_refl) as (B2 & t2 & HB2 & E2) end.
  rewrite E2. cbn [bind gs_crc gs_lcrc gs_out]. eexists. split; [reflexivity|].
  unfold gzip_stitch_fini. cbn [gs_crc gs_lcrc gs_out gzip_stitch_new].
  assert (Z0 : forall n, crc_zeros 0 n = 0).
  { intros n. unfold crc_zeros. apply N.iter_invariant; [|auto]. intros x ->. reflexivity. }
  assert (C1 : comb 0 (crc32 d1) (len d1 mod 2 ^ 32) = crc32 d1).
  { rewrite C by (auto; reflexivity). rewrite Z0, N.lxor_0_l. auto. }
  rewrite C1, C by auto.
  assert (HB : blocks [] (to_bits (B1 ++ B2)) (rev (d1 ++ d2)) []).
  { rewrite to_bits_app. apply blocks_loc in HB1. destruct HB1 as (p & Ep & HB). rewrite app_nil_r in Ep. rewrite Ep.
    specialize (HB [] (to_bits B2) (same8_bytes [] B2)). rewrite (app_nil_r (rev d1)) in HB. change ([] ++ []) with (@nil N) in HB.
    eapply blocks_trans; [exact HB|].
    apply blocks_loc in HB2. destruct HB2 as (p1 & Ep1 & HB2). rewrite app_nil_r in Ep1. rewrite Ep1.
    specialize (HB2 (rev d1) [] eq_refl). rewrite !app_nil_r in HB2. rewrite rev_app_distr. exact HB2. }
  rewrite <- (app_assoc gzip_stitch_head). rewrite <- !app_assoc.
  match goal with |- gunzip (_ ++ _ ++ _ ++ _ ++ le_enc 4 ?c ++ le_enc 4 ?i) = None =>
    pose proof (gunzip_gen gzip_stitch_head (B1 ++ B2) [1; 0; 0; 255; 255] _ (d1 ++ d2) c i [] (fun x => eq_refl) HB) as G end.
  rewrite app_nil_r, <- app_assoc in G. rewrite G; auto.
  - rewrite crc32_app.
    replace (N.lxor (crc_zeros (crc32 d1) (len d2 mod 2 ^ 32)) (crc32 d2) =?
             N.lxor (crc_zeros (crc32 d1) (len d2)) (crc32 d2)) with false; [reflexivity|].
    symmetry. apply N.eqb_neq. intros E.
    apply (f_equal (fun z => N.lxor z (crc32 d2))) in E. rewrite !N.lxor_assoc, !N.lxor_nilpotent, !N.lxor_0_r in E.
    assert (R : len d2 mod 2 ^ 32 = len d2 - 2 ^ 32).
    { symmetry. apply (N.mod_unique _ _ 1); lia. }
    replace (len d2) with (2 ^ 32 + (len d2 - 2 ^ 32)) in E at 2 by lia.
    rewrite R, crc_zeros_add, zeros_2_32 in E by auto.
    apply crc_zeros_inj in E; auto.
    + apply N1. apply zbyte_fix; auto.
    + apply crc_byte_lt; auto. reflexivity.
  - symmetry. apply rev_involutive.
  - apply lxor_lt; auto. apply crc_zeros_lt. auto.
  - apply N.mod_lt. lia.
Qed.

(** * A segment of stored blocks for any data *)

Definition stored1 (d : bytes) : bytes := flat_map (fun x => [0; 1; 0; 254; 255; x]) d ++ [0; 0; 0; 255; 255].

Lemma stored1_blocks d : is_bytes d -> forall w y, blocks w (to_bits (stored1 d ++ y)) (rev d ++ w) (to_bits y).
Proof.
  intros Hd. induction d as [|x d IH]; intros w y.
  - unfold stored1. cbn [flat_map]. rewrite app_nil_l.
    assert (E : inf_block [] (to_bits [0; 0; 0; 255; 255]) = Some (false, [], [])) by (vm_compute; auto).
    apply inf_block_loc in E. destruct E as (p & E0 & _ & E). rewrite app_nil_r in E0.
    rewrite to_bits_app, E0. econstructor; [|constructor]. apply (E w (to_bits y) (same8_bytes [] y)).
  - apply Forall_cons_iff in Hd. destruct Hd as [Hx Hd]. specialize (IH Hd (x :: w) y).
    assert (E : inf_block [] (to_bits [0; 1; 0; 254; 255; x]) = Some (false, [x], [])).
    { assert (A : forallb (fun x => match inf_block [] (to_bits [0; 1; 0; 254; 255; x]) with
        Some (false, [z], []) => z =? x | _ => false end) (map N.of_nat (seq 0 256)) = true) by (vm_compute; auto).
      rewrite forallb_forall in A. specialize (A x).
      destruct (inf_block [] (to_bits [0; 1; 0; 254; 255; x])) as [[[[|] [|z [|]]] [|]]|];
        (assert (I : In x (map N.of_nat (seq 0 256))) by
         (apply in_map_iff; exists (N.to_nat x); split; [lia|apply in_seq; lia])); specialize (A I); try discriminate.
      apply N.eqb_eq in A. subst. auto. }
    apply inf_block_loc in E. destruct E as (p & E0 & _ & E). rewrite app_nil_r in E0.
    unfold stored1. cbn [flat_map]. rewrite <- !app_assoc. fold bytes in *.
    replace ([0; 1; 0; 254; 255; x] ++ flat_map (fun x => [0; 1; 0; 254; 255; x]) d ++ [0; 0; 0; 255; 255] ++ y)
      with ([0; 1; 0; 254; 255; x] ++ (stored1 d ++ y)) by (unfold stored1; rewrite <- !app_assoc; auto).
    rewrite to_bits_app, E0. econstructor.
    + apply (E w (to_bits (stored1 d ++ y)) (same8_bytes [] _)).
    + cbn [rev]. rewrite <- app_assoc. exact IH.
Qed.

Definition stored_seg (d : bytes) : bytes :=
  let body := stored1 d ++ [3; 0] ++ le_enc 4 (crc32 d) ++ le_enc 4 (len d mod 2 ^ 32) in
  ([31; 139; 8; 4; 0; 0; 0; 0; 2; 3; 12; 0; 65; 97; 8; 0] ++ le_enc 8 (24 + len body)) ++ body.

Lemma stored1_len d : len (stored1 d) = 6 * len d + 5.
Proof.
  unfold stored1. rewrite len_app. replace (len [0; 0; 0; 255; 255]) with 5 by reflexivity. f_equal.
  induction d as [|x d IH]; [reflexivity|]. cbn [flat_map]. rewrite len_app, IH, (len_cons x d).
  replace (len [0; 1; 0; 254; 255; x]) with 6 by reflexivity. lia.
Qed.

Lemma stored_seg_len d : len (stored_seg d) = 6 * len d + 39.
Proof.
  unfold stored_seg. rewrite !len_app, stored1_len, !le_enc_len. 
  replace (len [31; 139; 8; 4; 0; 0; 0; 0; 2; 3; 12; 0; 65; 97; 8; 0]) with 16 by reflexivity.
  replace (len [3; 0]) with 2 by reflexivity. idtac. lia.
Qed.

Lemma stored_synced d : is_bytes d -> len d < 2 ^ 60 -> synced (stored_seg d) d.
Proof.
  intros Hd L. exists 2, (stored1 d), [3; 0]. rewrite stored_seg_len. split; [|split; [|split; [|split]]]; auto.
  - unfold stored_seg. cbv zeta. do 3 f_equal. rewrite !len_app, stored1_len, !le_enc_len.
    replace (len [3; 0]) with 2 by reflexivity. lia.
  - lia.
  - exists (flat_map (fun x => [0; 1; 0; 254; 255; x]) d ++ [0]). unfold stored1. rewrite <- app_assoc. reflexivity.
  - pose proof (stored1_blocks d Hd [] []) as H. rewrite !app_nil_r in H. exact H.
Qed.

Lemma stored_ok d : is_bytes d -> len d < 2 ^ 60 -> ok_seg ([stored_seg d], d).
Proof.
  intros Hd L. exists (stored_seg d). split; [|apply stored_synced; auto]. split; [|split]; cbn [fst snd].
  - cbn [concat]. apply app_nil_r.
  - constructor; [|constructor]. unfold stored_seg. discriminate.
  - rewrite stored_seg_len. lia.
Qed.
