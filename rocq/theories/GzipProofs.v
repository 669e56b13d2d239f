(* Proofs about GzipModel. *)
From Verif Require Import Base BaseLemmas ListLemmas IndexModel InflateSpec InflateProofs GzipModel GzipSpec.
From Coq Require Import ZifyBool ZifyNat ZifyN Lia.
Open Scope N_scope.

(** * Little endian *)

Lemma le_enc_length k n : length (le_enc k n) = k.
Proof. unfold le_enc. rewrite rev_length. apply be_enc_length. Qed.

Lemma le_enc_len k n : len (le_enc k n) = N.of_nat k.
Proof. unfold len. rewrite le_enc_length. auto. Qed.

Lemma le_dec_enc k n : n < 256 ^ N.of_nat k -> le_dec (le_enc k n) = n.
Proof. intros H. unfold le_dec, le_enc. rewrite rev_involutive, be_dec_enc. apply N.mod_small. auto. Qed.

(** * CRC *)

Lemma bound_bits n x : x < 2 ^ n <-> forall i, n <= i -> N.testbit x i = false.
Proof.
  split.
  - intros H i Hi. destruct (N.eq_dec x 0) as [->|Hx]; [apply N.bits_0|].
    apply N.bits_above_log2. apply N.log2_lt_pow2 in H; lia.
  - intros H. destruct (N.lt_ge_cases x (2 ^ n)) as [|G]; auto. exfalso.
    assert (x <> 0) by (intros ->; pose proof (N.pow_nonzero 2 n); lia).
    apply N.log2_le_pow2 in G; [|lia]. specialize (H _ G). rewrite N.bit_log2 in H; [discriminate|auto].
Qed.

Lemma lxor_lt n a b : a < 2 ^ n -> b < 2 ^ n -> N.lxor a b < 2 ^ n.
Proof. rewrite !bound_bits. intros Ha Hb i Hi. rewrite N.lxor_spec, Ha, Hb by auto. auto. Qed.

Lemma crc_step_lt c : c < 2 ^ 32 -> crc_step c < 2 ^ 32.
Proof.
  intros H. assert (N.div2 c < 2 ^ 32). { rewrite N.div2_div. apply N.div_lt_upper_bound; lia. }
  unfold crc_step. destruct (N.testbit c 0); auto. apply lxor_lt; auto. reflexivity.
Qed.

Lemma iter_lt k c : c < 2 ^ 32 -> Nat.iter k crc_step c < 2 ^ 32.
Proof. intros H. induction k; [exact H|]. apply crc_step_lt. auto. Qed.

Lemma crc_byte_lt c b : c < 2 ^ 32 -> b < 256 -> crc_byte c b < 2 ^ 32.
Proof. intros Hc Hb. apply iter_lt. apply lxor_lt; auto. eapply N.lt_trans; [exact Hb|reflexivity]. Qed.

Lemma crc_raw_lt d : is_bytes d -> forall c, c < 2 ^ 32 -> crc_raw c d < 2 ^ 32.
Proof.
  unfold crc_raw. induction d as [|x d IH]; intros Hd c Hc; [exact Hc|].
  apply Forall_cons_iff in Hd. destruct Hd. cbn [fold_left]. apply IH; auto. apply crc_byte_lt; auto.
Qed.

Lemma crc32_lt d : is_bytes d -> crc32 d < 2 ^ 32.
Proof. intros H. apply lxor_lt; [|reflexivity]. apply crc_raw_lt; auto. reflexivity. Qed.

Lemma crc_step_xor a b : crc_step (N.lxor a b) = N.lxor (crc_step a) (crc_step b).
Proof.
  unfold crc_step. rewrite N.lxor_spec, !N.div2_spec, N.shiftr_lxor. set (p := 3988292384).
  set (u := N.shiftr a 1). set (v := N.shiftr b 1).
  destruct (N.testbit a 0), (N.testbit b 0); cbn [xorb].
  - rewrite <- N.lxor_assoc, (N.lxor_comm u p), (N.lxor_assoc p u v), (N.lxor_comm p (N.lxor u v)).
    rewrite N.lxor_assoc, N.lxor_nilpotent, N.lxor_0_r. auto.
  - rewrite !N.lxor_assoc, (N.lxor_comm v p). auto.
  - rewrite !N.lxor_assoc. auto.
  - auto.
Qed.

Lemma iter_xor k a b : Nat.iter k crc_step (N.lxor a b) = N.lxor (Nat.iter k crc_step a) (Nat.iter k crc_step b).
Proof. induction k; [reflexivity|]. cbn [Nat.iter nat_rect]. unfold Nat.iter in *. cbn [nat_rect]. rewrite IHk. apply crc_step_xor. Qed.

Lemma crc_byte_xor c c' x : crc_byte (N.lxor c c') x = N.lxor (crc_byte c x) (crc_byte c' 0).
Proof.
  unfold crc_byte. rewrite N.lxor_0_r. rewrite <- iter_xor. f_equal.
  rewrite !N.lxor_assoc. f_equal. apply N.lxor_comm.
Qed.

Lemma crc_zeros_succ c n : crc_zeros c (N.succ n) = crc_zeros (crc_byte c 0) n.
Proof. unfold crc_zeros. rewrite N.iter_succ_r. auto. Qed.

Lemma crc_raw_xor d : forall c c', crc_raw (N.lxor c c') d = N.lxor (crc_raw c d) (crc_zeros c' (len d)).
Proof.
  induction d as [|x d IH]; intros c c'.
  - reflexivity.
  - unfold crc_raw in *. cbn [fold_left]. rewrite crc_byte_xor, IH. f_equal.
    replace (len (x :: d)) with (N.succ (len d)) by (unfold len; simpl length; lia). rewrite crc_zeros_succ. auto.
Qed.

Lemma crc32_app a b : crc32 (a ++ b) = N.lxor (crc_zeros (crc32 a) (len b)) (crc32 b).
Proof.
  unfold crc32 at 1. unfold crc_raw. rewrite fold_left_app. fold (crc_raw 4294967295 a).
  set (F := 4294967295). fold (crc_raw (crc_raw F a) b).
  assert (E : crc_raw F a = N.lxor F (crc32 a)).
  { unfold crc32. fold F. rewrite (N.lxor_comm (crc_raw F a)), <- N.lxor_assoc, N.lxor_nilpotent, N.lxor_0_l. auto. }
  rewrite E, crc_raw_xor. rewrite (N.lxor_comm (crc_raw F b)), N.lxor_assoc. auto.
Qed.

(** * Output of the decoder consists of bytes *)

Lemma bits_val_lt b : bits_val b < 2 ^ len b.
Proof.
  induction b as [|x b IH]; [reflexivity|]. cbn [bits_val].
  replace (len (x :: b)) with (1 + len b) by (unfold len; simpl length; lia). rewrite N.pow_add_r.
  set (p := 2 ^ len b) in *. change (2 ^ 1) with 2. destruct x; lia.
Qed.

Lemma getn_lt n b a r : getn n b = Some (a, r) -> a < 2 ^ N.of_nat n.
Proof.
  unfold getn. destruct (take n b) as [[x y]|] eqn:E; [|discriminate]. intros H. injection H as <- <-.
  apply take_loc in E. destruct E as (_ & <- & _). apply bits_val_lt.
Qed.

Lemma getbytes_bytes n : forall b d r, getbytes n b = Some (d, r) -> is_bytes d.
Proof.
  induction n as [|n IH]; intros b d r H; cbn [getbytes] in H.
  - injection H as <- <-. constructor.
  - unfold getbyte in H. destruct (getn 8 b) as [[x r1]|] eqn:E; [|discriminate].
    destruct (getbytes n r1) as [[l r2]|] eqn:E2; [|discriminate]. injection H as <- <-.
    constructor; [apply (getn_lt _ _ _ _ E)|exact (IH _ _ _ E2)].
Qed.

Lemma copy_bytes n : forall d w w', is_bytes w -> copy n d w = Some w' -> is_bytes w'.
Proof.
  induction n as [|n IH]; intros d w w' Hw H; cbn [copy] in H.
  - injection H as <-. auto.
  - destruct (nth_error w (N.to_nat (d - 1))) as [y|] eqn:E; [|discriminate].
    eapply IH; [|eassumption]. constructor; auto. apply nth_error_In in E. unfold is_bytes in Hw. rewrite Forall_forall in Hw. auto.
Qed.

Lemma inf_codes_bytes f : forall hl hd w b w' b', is_bytes w -> inf_codes f hl hd w b = Some (w', b') -> is_bytes w'.
Proof.
  induction f as [|f IH]; intros hl hd w b w' b' Hw H; cbn [inf_codes] in H; [discriminate|].
  destruct (getsym hl b) as [[s b1]|]; [|discriminate].
  destruct (s <? 256) eqn:S1.
  - eapply IH; [|eassumption]. constructor; auto. apply N.ltb_lt. auto.
  - destruct (s =? 256). { injection H as <- <-. auto. }
    destruct (get_match hd s w b1) as [[w1 b2]|] eqn:E; [|discriminate]. eapply IH; [|eassumption].
    unfold get_match in E.
    repeat match type of E with
    | match ?x with _ => _ end = Some _ => destruct x eqn:?; try discriminate
    | (let '(_, _) := ?x in _) = Some _ => destruct x eqn:?; try discriminate
    end.
    injection E as <- <-. eapply copy_bytes; eauto.
Qed.

Lemma inf_block_bytes w b fin w' b' : is_bytes w -> inf_block w b = Some (fin, w', b') -> is_bytes w'.
Proof.
  intros Hw H. unfold inf_block in H.
  destruct (getn 1 b) as [[f b1]|]; [|discriminate]. destruct (getn 2 b1) as [[ty b2]|]; [|discriminate].
  destruct (ty =? 0).
  { unfold inf_stored in H. destruct (getbytes 4 (align b2)) as [[l b3]|]; [|discriminate].
    destruct l as [|l0 [|l1 [|n0 [|n1 [|]]]]]; try discriminate.
    destruct ((l0 + n0 =? 255) && (l1 + n1 =? 255)); [|discriminate].
    destruct (getbytes (N.to_nat (l0 + 256 * l1)) b3) as [[d b4]|] eqn:E; [|discriminate].
    injection H as <- <- <-. apply getbytes_bytes in E. apply Forall_app. split; auto. apply Forall_rev. auto. }
  destruct (ty =? 1).
  { destruct (mk_huff fixed_lens) as [hl|]; [|discriminate]. destruct (mk_huff fixed_dist) as [hd|]; [|discriminate].
    destruct (inf_codes _ hl hd w b2) as [[w1 b3]|] eqn:E; [|discriminate]. injection H as <- <- <-.
    eapply inf_codes_bytes; eauto. }
  destruct (ty =? 2); [|discriminate].
  destruct (get_tables b2) as [[[hl hd] b3]|]; [|discriminate].
  destruct (inf_codes _ hl hd w b3) as [[w1 b4]|] eqn:E; [|discriminate]. injection H as <- <- <-.
  eapply inf_codes_bytes; eauto.
Qed.

Lemma blocks_bytes w b w' b' : blocks w b w' b' -> is_bytes w -> is_bytes w'.
Proof. intros H. induction H; auto. intros. apply IHblocks. eapply inf_block_bytes; eauto. Qed.

Lemma synced_bytes m data : synced m data -> is_bytes data.
Proof.
  intros (xfl & B & fin & _ & _ & _ & H & _). apply blocks_bytes in H; [|constructor].
  apply Forall_rev in H. rewrite rev_involutive in H. auto.
Qed.

(** * Decoding what is stitched *)

Lemma gunzip_gen h B fin w data c i tr : (forall x, gz_skip_head (h ++ x) = Some x) ->
  blocks [] (to_bits B) w [] -> data = rev w -> (fin = [3; 0] \/ fin = [1; 0; 0; 255; 255]) ->
  c < 2 ^ 32 -> i < 2 ^ 32 ->
  gunzip (h ++ B ++ fin ++ le_enc 4 c ++ le_enc 4 i ++ tr) =
  if negb (c =? crc32 data) || negb (i =? len data mod 2 ^ 32) then None else Some (data, tr).
Proof.
  intros Hh HB -> Hf Hc Hi. unfold gunzip. rewrite Hh.
  set (T := le_enc 4 c ++ le_enc 4 i ++ tr).
  apply blocks_loc in HB. destruct HB as (p & E & HB). rewrite app_nil_r in E.
  assert (F : exists t, (length t < 8)%nat /\
     inf_block w (to_bits (fin ++ T)) = Some (true, w, t ++ to_bits T)).
  { destruct Hf as [-> | ->].
    - destruct (fin_fixed w T) as (t & Ht & L). exists t. split; [lia|auto].
    - exists []. split; [simpl; lia|]. apply fin_stored. }
  destruct F as (t & Lt & F).
  rewrite (to_bits_app B), E.
  assert (BB : blocks [] (p ++ to_bits (fin ++ T)) w (to_bits (fin ++ T))).
  { specialize (HB [] (to_bits (fin ++ T)) (same8_bytes [] _)). rewrite (app_nil_r w) in HB. exact HB. }
  rewrite (blocks_fin _ _ _ _ _ _ BB F) by lia.
  assert (L : (length (t ++ to_bits T) / 8 = length T)%nat).
  { rewrite app_length, to_bits_len. apply div8. auto. }
  rewrite L.
  assert (R : skipn (length (B ++ fin ++ T) - length T) (B ++ fin ++ T) = T).
  { rewrite app_assoc, app_length. replace (_ + _ - _)%nat with (length (B ++ fin)) by lia.
    rewrite skipn_app, skipn_all, Nat.sub_diag. auto. }
  rewrite R. unfold T.
  assert (F4 : forall a b : bytes, length a = 4%nat -> firstn 4 (a ++ b) = a /\ skipn 4 (a ++ b) = b).
  { intros a b La. rewrite <- La. split.
    - rewrite firstn_app, firstn_all, Nat.sub_diag. simpl. apply app_nil_r.
    - rewrite skipn_app, skipn_all, Nat.sub_diag. auto. }
  destruct (F4 (le_enc 4 c) (le_enc 4 i ++ tr) (le_enc_length _ _)) as [A1 A2].
  destruct (F4 (le_enc 4 i) tr (le_enc_length _ _)) as [A3 A4].
  assert (S8 : forall l : bytes, skipn 8 l = skipn 4 (skipn 4 l)) by (intros; rewrite skipn_skipn; reflexivity).
  rewrite S8, A1, A2, A3, A4.
  rewrite !le_dec_enc by (change (256 ^ N.of_nat 4) with (2 ^ 32); auto).
  unfold len at 1. rewrite !app_length, !le_enc_length.
  replace (N.of_nat _ <? 8) with false by (symmetry; apply N.ltb_ge; lia). reflexivity.
Qed.

Lemma gunzip_tail h B fin w data tr : (forall x, gz_skip_head (h ++ x) = Some x) ->
  blocks [] (to_bits B) w [] -> data = rev w -> (fin = [3; 0] \/ fin = [1; 0; 0; 255; 255]) ->
  gunzip (h ++ B ++ fin ++ le_enc 4 (crc32 data) ++ le_enc 4 (len data mod 2 ^ 32) ++ tr) = Some (data, tr).
Proof.
  intros Hh HB E Hf. rewrite (gunzip_gen _ _ _ _ _ _ _ _ Hh HB E Hf).
  - rewrite !N.eqb_refl. reflexivity.
  - subst data. apply crc32_lt. apply Forall_rev. eapply blocks_bytes; eauto. constructor.
  - apply N.mod_lt. lia.
Qed.

Lemma aa_head_skip xfl l : length l = 8%nat -> forall x,
  gz_skip_head (([31; 139; 8; 4; 0; 0; 0; 0; xfl; 3; 12; 0; 65; 97; 8; 0] ++ l) ++ x) = Some x.
Proof.
  intros L x. destruct l as [|a [|b [|c [|d [|e [|f [|g [|i [|]]]]]]]]]; try discriminate. reflexivity.
Qed.

(* a segment decompresses to its data *)
Lemma synced_gunzip m data tr : synced m data -> gunzip (m ++ tr) = Some (data, tr).
Proof.
  intros (xfl & B & fin & E & _ & _ & HB & Hf). set (L := len m) in *. clearbody L. subst m. rewrite <- !app_assoc.
  rewrite (app_assoc _ (le_enc 8 L)). apply (gunzip_tail _ B fin (rev data) data); try assumption.
  - apply aa_head_skip. apply le_enc_length.
  - symmetry. apply rev_involutive.
Qed.

(** * The length field *)

Lemma set_nth_good p : Gzip_GoodAa p = Ok true -> exists xfl rest, (xfl = 2 \/ xfl = 4) /\
  p = [31; 139; 8; 4; 0; 0; 0; 0; xfl; 3; 12; 0; 65; 97; 8; 0] ++ rest.
Proof.
  unfold Gzip_GoodAa, guard. destruct (16 <=? len p) eqn:L; [|discriminate]. cbn [bind].
  apply N.leb_le in L. unfold len in L.
  do 16 (destruct p as [|? p]; [simpl length in L; lia|]). clear L.
  cbn [firstn nth]. match goal with |- context [negb (?x =? 2) && _] => rename x into xfl end.
  destruct (negb (xfl =? 2) && negb (xfl =? 4)) eqn:X; [discriminate|].
  unfold set_nth. cbn [firstn skipn app]. intros H. injection H as H.
  apply bytes_eqb_true in H. unfold gzip_head in H. injection H. intros. subst.
  exists xfl, p. split; [|reflexivity].
  destruct (xfl =? 2) eqn:A; [left; apply N.eqb_eq; auto|]. destruct (xfl =? 4) eqn:C; [right; apply N.eqb_eq; auto|discriminate].
Qed.

Lemma good_aa xfl rest : xfl = 2 \/ xfl = 4 ->
  Gzip_GoodAa ([31; 139; 8; 4; 0; 0; 0; 0; xfl; 3; 12; 0; 65; 97; 8; 0] ++ rest) = Ok true.
Proof.
  intros H. unfold Gzip_GoodAa, guard. unfold len. rewrite app_length.
  replace (16 <=? N.of_nat _) with true by (symmetry; apply N.leb_le; simpl length; lia).
  destruct H; subst; reflexivity.
Qed.

(** * Stitching *)

Lemma synced_shape m data : synced m data -> exists xfl B fin X T,
  m = ([31; 139; 8; 4; 0; 0; 0; 0; xfl; 3; 12; 0; 65; 97; 8; 0] ++ le_enc 8 (len m)) ++ X ++ T /\
  len m < 2 ^ 63 /\ blocks [] (to_bits B) (rev data) [] /\
  length T = 13%nat /\ X <> [] /\
  firstn 4 (skipn 5 T) = le_enc 4 (crc32 data) /\
  firstn 4 (skipn 9 T) = le_enc 4 (len data mod 2 ^ 32) /\
  ((fin = [3; 0] /\ nth 3 T 0 = 3 /\ nth 4 T 0 = 0 /\ X ++ firstn 3 T = B) \/
   (fin = [1; 0; 0; 255; 255] /\ firstn 5 T = fin /\ X = B)).
Proof.
  intros (xfl & B & fin & E & Lm & (B0 & EB) & HB & Hf).
  pose proof (le_enc_length 4 (crc32 data)) as L1. pose proof (le_enc_length 4 (len data mod 2 ^ 32)) as L2.
  set (c := le_enc 4 (crc32 data)) in *. set (d := le_enc 4 (len data mod 2 ^ 32)) in *. clearbody c d.
  destruct c as [|c0 [|c1 [|c2 [|c3 [|]]]]]; try discriminate.
  destruct d as [|d0 [|d1 [|d2 [|d3 [|]]]]]; try discriminate.
  exists xfl, B, fin. destruct Hf as [-> | ->].
  - exists (B0 ++ [0]), ([0; 255; 255; 3; 0; c0; c1; c2; c3; d0; d1; d2; d3]).
    repeat split; auto.
    + rewrite EB in E. rewrite E at 1. rewrite <- !app_assoc. reflexivity.
    + destruct B0; discriminate.
    + left. repeat split; auto. rewrite EB, <- app_assoc. reflexivity.
  - exists B, ([1; 0; 0; 255; 255; c0; c1; c2; c3; d0; d1; d2; d3]).
    repeat split; auto. rewrite EB. destruct B0; discriminate.
Qed.

Section StitchProof.
Variable comb : N -> N -> N -> N.

Definition sinv (X T out0 : bytes) (crc lcrc : N) (gs : stitch) (rest : bytes) : Prop :=
  gs_crc gs = crc /\ gs_lcrc gs = lcrc /\ gs_gzlen gs = Z.of_N (len rest) /\
  ((gs_state gs = GzInside /\ exists pre X', X = pre ++ X' /\ X' <> [] /\ rest = X' ++ T /\ gs_out gs = out0 ++ pre) \/
   (gs_state gs = GzTail /\ rest <> [] /\ T = gs_tail gs ++ rest /\ gs_out gs = out0 ++ X)).

Definition sfin (X T out0 : bytes) (crc lcrc : N) (r : res stitch) : Prop :=
  r = stitch_tail comb (mkGS GzTail 0 crc lcrc T (out0 ++ X)) T.

Lemma tail_ext gs gs' p : gs_crc gs = gs_crc gs' -> gs_lcrc gs = gs_lcrc gs' -> gs_out gs = gs_out gs' ->
  stitch_tail comb gs p = stitch_tail comb gs' p.
Proof. intros A B C. unfold stitch_tail. rewrite A, B, C. auto. Qed.

Lemma loop_tail X T out0 crc lcrc f gs p q : sinv X T out0 crc lcrc gs (p ++ q) -> gs_state gs = GzTail -> p <> [] ->
  (q <> [] -> exists gs', stitch_loop comb (S f) gs p = Ok gs' /\ sinv X T out0 crc lcrc gs' q) /\
  (q = [] -> sfin X T out0 crc lcrc (stitch_loop comb (S f) gs p)).
Proof.
  intros (A1 & A2 & A3 & H) St Hp. destruct H as [(C & _)|(_ & R & ET & O)]; [congruence|].
  cbn [stitch_loop]. destruct p as [|x p]; [congruence|]. rewrite St, A3. clear Hp R.
  set (p0 := x :: p) in *. rewrite len_app.
  replace (Z.of_N (len p0 + len q) <? Z.of_N (len p0))%Z with false by lia.
  split.
  - intros Hq. assert (0 < len q). { destruct q; [congruence|]. rewrite len_cons. lia. }
    replace (Z.of_N (len p0 + len q) - Z.of_N (len p0) =? 0)%Z with false by lia.
    eexists. split; [reflexivity|]. unfold sinv. cbn [gs_crc gs_lcrc gs_gzlen gs_state gs_tail gs_out].
    split; [auto|]. split; [auto|]. split; [lia|]. right. split; [auto|]. split; [auto|].
    rewrite <- app_assoc. auto.
  - intros ->. rewrite app_nil_r in *. rewrite len_nil.
    replace (Z.of_N (len p0 + 0) - Z.of_N (len p0) =? 0)%Z with true by lia.
    unfold sfin. rewrite <- ET. apply tail_ext; auto.
Qed.

Lemma loop_piece X T out0 crc lcrc f gs p q : length T = 13%nat ->
  sinv X T out0 crc lcrc gs (p ++ q) -> p <> [] ->
  (q <> [] -> exists gs', stitch_loop comb (S (S (S f))) gs p = Ok gs' /\ sinv X T out0 crc lcrc gs' q) /\
  (q = [] -> sfin X T out0 crc lcrc (stitch_loop comb (S (S (S f))) gs p)).
Proof.
  intros LT I Hp. pose proof I as (A1 & A2 & A3 & [(St & pre & X' & EX & NX & ER & O)|(St & _)]).
  2:{ apply loop_tail; auto. }
  remember (S (S f)) as f' eqn:Ef. cbn [stitch_loop]. destruct p as [|x p]; [congruence|]. rewrite St, A3. clear Hp.
  set (p0 := x :: p) in *. assert (P0 : 0 < len p0). { unfold p0. rewrite len_cons. lia. }
  clearbody p0. rewrite len_app. unfold guard.
  replace (Z.of_N (len p0) <=? Z.of_N (len p0 + len q))%Z with true by lia. cbn [bind].
  assert (LR : len p0 + len q = len X' + 13).
  { rewrite <- !len_app, ER, len_app. unfold len at 2. rewrite LT. reflexivity. }
  assert (LX : 0 < len X'). { destruct X'; [congruence|]. rewrite len_cons. lia. }
  destruct (Z.of_N (len p0 + len q) - 13 <? Z.of_N (len p0))%Z eqn:C.
  - (* past the end of X *)
    apply Z.ltb_lt in C. replace (Z.of_N (len p0 + len q) - 13 <? 0)%Z with false by lia.
    replace (Z.to_nat (Z.of_N (len p0 + len q) - 13)) with (length X') by (unfold len in *; lia).
    replace (Z.of_N (len p0 + len q) - (Z.of_N (len p0 + len q) - 13))%Z with 13%Z by lia. cbn [Z.eqb Pos.eqb].
    assert (S : exists p1, p0 = X' ++ p1 /\ p1 ++ q = T).
    { exists (skipn (length X') p0).
      assert (F : firstn (length X') (p0 ++ q) = X') by (rewrite ER, firstn_app, firstn_all, Nat.sub_diag; rewrite firstn_O; apply app_nil_r).
      rewrite firstn_app in F. replace (length X' - length p0)%nat with 0%nat in F by (unfold len in *; lia).
      simpl in F. rewrite app_nil_r in F.
      split. { rewrite <- F at 1. symmetry. apply firstn_skipn. }
      assert (G : skipn (length X') (p0 ++ q) = T) by (rewrite ER, skipn_app, skipn_all, Nat.sub_diag; reflexivity).
      rewrite skipn_app in G. replace (length X' - length p0)%nat with 0%nat in G by (unfold len in *; lia). exact G. }
    destruct S as (p1 & Ep & E1).
    assert (F : firstn (length X') p0 = X') by (rewrite Ep, firstn_app, firstn_all, Nat.sub_diag; rewrite firstn_O; apply app_nil_r).
    assert (G : skipn (length X') p0 = p1) by (rewrite Ep, skipn_app, skipn_all, Nat.sub_diag; reflexivity).
    rewrite F, G.
    assert (N1 : p1 <> []). { intros ->. rewrite app_nil_r in Ep. rewrite Ep in *. lia. }
    subst f'. apply loop_tail; auto. unfold sinv. cbn [gs_crc gs_lcrc gs_gzlen gs_state gs_tail gs_out].
    rewrite E1. split; [auto|]. split; [auto|]. split; [unfold len; rewrite LT; reflexivity|].
    right. split; [auto|]. split; [intros E; rewrite E in LT; discriminate|]. split; [auto|].
    rewrite O, <- app_assoc, EX. auto.
  - apply Z.ltb_ge in C. replace (Z.of_N (len p0) <? 0)%Z with false by lia.
    replace (Z.to_nat (Z.of_N (len p0))) with (length p0) by (unfold len; lia).
    rewrite firstn_all, skipn_all. subst f'. cbn [stitch_loop].
    assert (Lq : 13 <= len q) by lia.
    split; [intros _|intros ->; rewrite len_nil in Lq; lia].
    eexists. split; [reflexivity|]. unfold sinv. cbn [gs_crc gs_lcrc gs_gzlen gs_state gs_tail gs_out].
    split; [auto|]. split; [auto|]. split; [lia|].
    assert (S : exists X1, X' = p0 ++ X1 /\ q = X1 ++ T).
    { exists (firstn (length X' - length p0) q).
      assert (F : firstn (length X') (p0 ++ q) = X') by (rewrite ER, firstn_app, firstn_all, Nat.sub_diag; rewrite firstn_O; apply app_nil_r).
      rewrite firstn_app in F. rewrite firstn_all2 in F by (unfold len in *; lia).
      split; [symmetry; exact F|].
      rewrite <- F in ER. rewrite <- app_assoc in ER. apply app_inv_head in ER. exact ER. }
    destruct S as (X1 & E1 & Eq). destruct X1 as [|y X1].
    + rewrite app_nil_r in E1. subst p0. simpl in Eq. subst q.
      replace (len T) with 13 in * by (unfold len; rewrite LT; reflexivity).
      replace (Z.of_N (len X' + 13) - Z.of_N (len X') =? 13)%Z with true by lia.
      right. split; [auto|]. split; [intros E; rewrite E in LT; discriminate|]. split; [auto|].
      rewrite O, <- app_assoc, EX. auto.
    + assert (13 < len q). { rewrite Eq, len_app, len_cons. unfold len. rewrite LT. lia. }
      replace (Z.of_N (len p0 + len q) - Z.of_N (len p0) =? 13)%Z with false by lia.
      left. split; [auto|]. exists (pre ++ p0), (y :: X1). split; [rewrite <- app_assoc, EX, E1; auto|].
      split; [discriminate|]. split; [auto|]. rewrite O, <- app_assoc. auto.
Qed.

Lemma pieces_rest X T out0 crc lcrc : length T = 13%nat -> forall ps gs, ps <> [] -> Forall (fun p => p <> []) ps ->
  sinv X T out0 crc lcrc gs (concat ps) -> sfin X T out0 crc lcrc (stitch_pieces comb gs ps).
Proof.
  intros LT ps. induction ps as [|p ps IH]; intros gs Hn HF I; [congruence|].
  apply Forall_cons_iff in HF. destruct HF as [Hp HF]. cbn [concat stitch_pieces] in *. unfold gzip_stitch_feed.
  replace (length p + 3)%nat with (S (S (S (length p)))) by lia.
  destruct (loop_piece X T out0 crc lcrc (length p) gs p (concat ps) LT I Hp) as [A B].
  destruct ps as [|p2 ps].
  - specialize (B eq_refl). unfold sfin in *. rewrite B. cbn [stitch_pieces].
    destruct (stitch_tail comb _ T); reflexivity.
  - destruct A as (gs' & E & I').
    + apply Forall_cons_iff in HF. destruct HF as [H2 _]. destruct p2; [congruence|discriminate].
    + rewrite E. cbn [bind]. apply IH; auto. discriminate.
Qed.

Lemma feed_member m data ps gs : synced m data -> pieces m ps -> gs_state gs = GzOutside ->
  exists B t, blocks [] (to_bits B) (rev data) [] /\
  stitch_pieces comb gs ps =
    Ok (mkGS GzOutside 0 (comb (gs_crc gs) (crc32 data) (len data mod 2 ^ 32))
             ((gs_lcrc gs + len data mod 2 ^ 32) mod 2 ^ 32) t (gs_out gs ++ B)).
Proof.
  intros Hs (EP & HF & H24) St. pose proof (synced_bytes _ _ Hs) as Hb.
  destruct (synced_shape _ _ Hs) as (xfl & B & fin & X & T & Em & Lm & HB & LT & NX & C1 & C2 & Hf).
  exists B, T. split; auto.
  assert (FIN : sfin X T (gs_out gs) (gs_crc gs) (gs_lcrc gs) (stitch_pieces comb gs ps)).
  { destruct ps as [|p ps]; [contradiction|]. apply Forall_cons_iff in HF. destruct HF as [Hp HF].
    cbn [concat] in EP. pose proof (le_enc_length 8 (len m)) as L8.
    set (h := [31; 139; 8; 4; 0; 0; 0; 0; xfl; 3; 12; 0; 65; 97; 8; 0] ++ le_enc 8 (len m)) in *.
    assert (Lh : length h = 24%nat) by (unfold h; rewrite app_length, L8; reflexivity).
    assert (S : exists p', p = h ++ p' /\ p' ++ concat ps = X ++ T).
    { exists (skipn 24 p). rewrite <- EP in Em.
      assert (F : firstn 24 (p ++ concat ps) = h) by (rewrite Em, <- Lh, firstn_app, firstn_all, Nat.sub_diag; rewrite firstn_O; apply app_nil_r).
      rewrite firstn_app in F. replace (24 - length p)%nat with 0%nat in F by (unfold len in *; lia).
      rewrite firstn_O, app_nil_r in F.
      split. { rewrite <- F. symmetry. apply firstn_skipn. }
      rewrite <- (firstn_skipn 24 p), F in Em at 1. rewrite <- app_assoc in Em. apply app_inv_head in Em. exact Em. }
    destruct S as (p' & Ep & E').
    cbn [stitch_pieces]. unfold gzip_stitch_feed.
    replace (length p + 3)%nat with (S (S (S (S (length p - 1))))) by (unfold len in *; lia).
    remember (S (S (S (length p - 1)))) as f eqn:Ef. cbn [stitch_loop].
    destruct p as [|x0 p0] eqn:P; [congruence|]. rewrite <- P in *. clear P. rewrite St. unfold guard.
    replace (24 <=? len p) with true by (symmetry; apply N.leb_le; auto). cbn [bind].
    assert (Hd : firstn 8 (skipn 16 p) = le_enc 8 (len m) /\ skipn 24 p = p' /\
       ((nth 0 p 0 =? 31) && (nth 1 p 0 =? 139) && (nth 2 p 0 =? 8) &&
        (nth 3 p 0 =? 4) && (nth 12 p 0 =? 65) && (nth 13 p 0 =? 97) &&
        (nth 14 p 0 =? 8) && (nth 15 p 0 =? 0)) = true).
    { rewrite Ep. unfold h. split; [|split].
      - rewrite <- app_assoc. change (skipn 16 _) with (le_enc 8 (len m) ++ p').
        rewrite <- L8 at 1. rewrite firstn_app, firstn_all, Nat.sub_diag. simpl firstn. apply app_nil_r.
      - fold h. rewrite <- Lh. rewrite skipn_app, skipn_all, Nat.sub_diag. reflexivity.
      - reflexivity. }
    destruct Hd as (D1 & D2 & D3). rewrite D1, D2, D3. cbn [bind].
    rewrite le_dec_enc by (change (256 ^ N.of_nat 8) with (2 ^ 64); lia).
    assert (T64 : to_i64 (len m) = Z.of_N (len m)). { unfold to_i64. replace (len m <? 2 ^ 63) with true by lia. reflexivity. }
    rewrite T64.
    assert (LM : len m = 24 + len (X ++ T)). { rewrite Em at 1. rewrite len_app. unfold len at 1. rewrite Lh. reflexivity. }
    match goal with |- context [stitch_loop comb f ?g p'] => set (g1 := g) end.
    assert (I : sinv X T (gs_out gs) (gs_crc gs) (gs_lcrc gs) g1 (p' ++ concat ps)).
    { unfold sinv, g1. cbn [gs_crc gs_lcrc gs_gzlen gs_state gs_tail gs_out]. rewrite E'.
      split; [auto|]. split; [auto|]. split; [lia|]. left. split; [auto|]. exists [], X.
      split; [auto|]. split; [auto|]. split; [auto|]. symmetry. apply app_nil_r. }
    destruct p' as [|x p'].
    - subst f. cbn [stitch_loop bind]. simpl in E', I. apply pieces_rest; auto.
      intros E0. rewrite E0 in E'. simpl in E'. destruct X; [congruence|discriminate].
    - subst f. destruct (loop_piece X T (gs_out gs) (gs_crc gs) (gs_lcrc gs) (length p - 1) g1 (x :: p') (concat ps) LT I) as [A A']; [discriminate|].
      destruct ps as [|p2 ps].
      + specialize (A' eq_refl). unfold sfin in *. rewrite A'. cbn [stitch_pieces]. destruct (stitch_tail comb _ T); reflexivity.
      + destruct A as (gs' & E & I').
        * apply Forall_cons_iff in HF. destruct HF as [H2 _]. cbn [concat]. destruct p2; [congruence|discriminate].
        * rewrite E. cbn [bind]. apply pieces_rest; auto. discriminate. }
  unfold sfin in FIN. rewrite FIN. unfold stitch_tail. cbn [gs_crc gs_lcrc gs_out]. rewrite C1, C2.
  rewrite !le_dec_enc.
  2:{ change (256 ^ N.of_nat 4) with (2 ^ 32). apply N.mod_lt. lia. }
  2:{ change (256 ^ N.of_nat 4) with (2 ^ 32). apply crc32_lt. auto. }
  destruct Hf as [(_ & N3 & N4 & EX)|(E5 & F5 & EX)].
  - rewrite N3, N4. cbn [N.eqb andb bind]. change (3 =? 3) with true. cbn [andb bind]. rewrite <- EX, app_assoc. reflexivity.
  - rewrite E5 in F5. subst X. do 5 (destruct T as [|? T]; [discriminate|]). cbn [firstn] in F5.
    injection F5 as -> -> -> -> ->. cbn [nth]. change (255 =? 3) with false. cbn [andb bind].
    change ((1 =? 1) && (0 =? 0) && (0 =? 0) && (255 =? 255) && (255 =? 255)) with true. cbn [bind].
    rewrite app_nil_r. reflexivity.
Qed.

Lemma pieces_app a : forall gs b, stitch_pieces comb gs (a ++ b) = (let* gs' := stitch_pieces comb gs a in stitch_pieces comb gs' b).
Proof.
  induction a as [|p a IH]; intros gs b; [reflexivity|]. cbn [app stitch_pieces].
  destruct (gzip_stitch_feed comb gs p); auto. cbn [bind]. apply IH.
Qed.

Lemma feed_segs (C : comb_ok comb) segs : Forall ok_seg segs -> Forall (fun s => len (snd s) < 2 ^ 32) (tl segs) ->
  forall gs B data, gs_state gs = GzOutside -> is_bytes data ->
  gs_out gs = gzip_stitch_head ++ B -> blocks [] (to_bits B) (rev data) [] ->
  gs_crc gs = crc32 data -> gs_lcrc gs = len data mod 2 ^ 32 ->
  (data = [] \/ Forall (fun s => len (snd s) < 2 ^ 32) segs) ->
  exists B' t, blocks [] (to_bits B') (rev (data ++ concat (map snd segs))) [] /\
    is_bytes (data ++ concat (map snd segs)) /\
    stitch_pieces comb gs (concat (map fst segs)) =
      Ok (mkGS GzOutside (match segs with [] => gs_gzlen gs | _ => 0%Z end)
               (crc32 (data ++ concat (map snd segs)))
               (len (data ++ concat (map snd segs)) mod 2 ^ 32) t (gzip_stitch_head ++ B')).
Proof.
  induction segs as [|[ps d] segs IH]; intros HF HT gs B data St Hd O HB Hc Hl Hsm.
  - exists B, (gs_tail gs). cbn [map concat]. rewrite app_nil_r. split; auto. split; auto.
    cbn [stitch_pieces]. destruct gs; cbn in *; subst; auto.
  - apply Forall_cons_iff in HF. destruct HF as [(m & HP & HS) HF]. cbn [fst snd tl] in *.
    pose proof (synced_bytes _ _ HS) as Hbd.
    destruct (feed_member m d ps gs HS HP St) as (B1 & t & HB1 & E).
    cbn [map concat fst snd]. rewrite pieces_app, E. cbn [bind].
    assert (Crc : comb (gs_crc gs) (crc32 d) (len d mod 2 ^ 32) = crc32 (data ++ d)).
    { rewrite C; [|rewrite Hc; apply crc32_lt; auto|apply crc32_lt; auto]. rewrite crc32_app, Hc. f_equal.
      destruct Hsm as [-> | Hsm].
      - change (crc32 []) with 0. assert (Z0 : forall n, crc_zeros 0 n = 0).
        { intros n. unfold crc_zeros. apply N.iter_invariant; [|auto]. intros x ->. reflexivity. }
        rewrite !Z0. auto.
      - apply Forall_cons_iff in Hsm. destruct Hsm as [Hsm _]. cbn [snd] in Hsm. rewrite (N.mod_small _ _ Hsm). auto. }
    match goal with |- context [stitch_pieces comb ?g _] => set (g1 := g) end.
    destruct (IH HF) with (gs := g1) (B := B ++ B1) (data := data ++ d) as (B' & t' & R1 & R2 & R3); auto.
    + destruct segs; [constructor|]. apply Forall_cons_iff in HT. apply HT.
    + apply Forall_app. auto.
    + unfold g1. cbn [gs_out]. rewrite O, <- app_assoc. auto.
    + rewrite to_bits_app. apply blocks_loc in HB. destruct HB as (p & Ep & HB). rewrite app_nil_r in Ep. rewrite Ep.
      specialize (HB [] (to_bits B1) (same8_bytes [] B1)). rewrite (app_nil_r (rev data)) in HB. change ([] ++ []) with (@nil N) in HB.
      eapply blocks_trans; [exact HB|].
      apply blocks_loc in HB1. destruct HB1 as (p1 & Ep1 & HB1). rewrite app_nil_r in Ep1. rewrite Ep1.
      specialize (HB1 (rev data) [] eq_refl). rewrite !app_nil_r in HB1. rewrite rev_app_distr. exact HB1.
    + unfold g1. cbn [gs_lcrc]. rewrite Hl, len_app. rewrite <- N.add_mod by lia. auto.
    + exists B', t'. rewrite <- app_assoc in R1, R2, R3. split; [auto|]. split; [auto|].
      rewrite R3. destruct segs; reflexivity.
Qed.

Lemma stitch_correct segs : comb_ok comb -> Forall ok_seg segs ->
  Forall (fun s => len (snd s) < 2 ^ 32) (tl segs) ->
  exists out, stitch_all comb (concat (map fst segs)) = Ok out /\
    gunzip out = Some (concat (map snd segs), []).
Proof.
  intros C HF HT. unfold stitch_all.
  destruct (feed_segs C segs HF HT gzip_stitch_new [] []) as (B & t & HB & Hb & E); try reflexivity; try constructor; auto.
  cbn [app] in *. rewrite E. cbn [bind]. eexists. split; [reflexivity|].
  unfold gzip_stitch_fini. cbn [gs_out gs_crc gs_lcrc]. rewrite <- !app_assoc.
  pose proof (gunzip_tail gzip_stitch_head B [1; 0; 0; 255; 255] _ (concat (map snd segs)) [] (fun x => eq_refl) HB) as G.
  rewrite app_nil_r in G. apply G; auto. symmetry. apply rev_involutive.
Qed.
End StitchProof.

(** * The length field, written and read back *)

Lemma write_at (a m r d : bytes) o : (o + length d <= length m)%nat ->
  file_write (a ++ m ++ r) (len a + N.of_nat o) d = a ++ (firstn o m ++ d ++ skipn (o + length d) m) ++ r.
Proof.
  intros H. unfold file_write. cbv zeta.
  replace (N.to_nat (len a + N.of_nat o)) with (length a + o)%nat by (unfold len; lia).
  unfold bytes in *. rewrite !app_length. replace (length a + o - _)%nat with 0%nat by lia. cbn [repeat]. rewrite app_nil_r.
  replace (length a + o + length d)%nat with (length a + (o + length d))%nat by lia.
  rewrite !firstn_app_2. rewrite (skipn_app (length a + _) a), skipn_all2 by lia.
  replace (length a + (o + length d) - length a)%nat with (o + length d)%nat by lia.
  rewrite (firstn_app o m r), (skipn_app (o + length d) m r).
  replace (o - length m)%nat with 0%nat by lia. replace (o + length d - length m)%nat with 0%nat by lia.
  cbn [skipn firstn app]. rewrite app_nil_r, <- !app_assoc. reflexivity.
Qed.

Lemma good_cases p : Gzip_GoodAa p = Ok true -> 24 <= len p -> exists h l m,
  p = h ++ l ++ m /\ length h = 16%nat /\ length l = 8%nat /\ (forall x, Gzip_GoodAa (h ++ x) = Ok true).
Proof.
  intros G L. destruct (set_nth_good _ G) as (xfl & rest & Hx & ->).
  exists [31; 139; 8; 4; 0; 0; 0; 0; xfl; 3; 12; 0; 65; 97; 8; 0], (firstn 8 rest), (skipn 8 rest).
  rewrite firstn_skipn. split; [auto|]. split; [auto|]. split.
  - rewrite firstn_length. rewrite len_app in L. unfold len in L. simpl length in L. lia.
  - intros x. apply good_aa. auto.
Qed.

Lemma read_aa h n m : length h = 16%nat -> (forall x, Gzip_GoodAa (h ++ x) = Ok true) ->
  0 < n < 2 ^ 63 -> Gzip_ReadAa (h ++ le_enc 8 n ++ m) = Ok (Z.of_N n).
Proof.
  intros Lh G Hn. unfold Gzip_ReadAa. rewrite G. cbn [bind guard]. unfold guard.
  assert (L : len (h ++ le_enc 8 n ++ m) = 24 + len m).
  { rewrite !len_app, le_enc_len. unfold len at 1. rewrite Lh. lia. }
  rewrite L. replace (16 <=? 24 + len m) with true by lia. cbn [bind].
  replace (24 + len m <? 24) with false by lia.
  rewrite <- Lh, skipn_app, skipn_all, Nat.sub_diag. cbn [skipn app].
  rewrite firstn_app, le_enc_length, Nat.sub_diag, firstn_O, app_nil_r.
  rewrite firstn_all2 by (rewrite le_enc_length; lia).
  rewrite le_dec_enc by (change (256 ^ N.of_nat 8) with (2 ^ 64); lia).
  unfold to_i64. replace (n <? 2 ^ 63) with true by lia. replace (0 <? Z.of_N n)%Z with true by lia. reflexivity.
Qed.

Lemma aa_roundtrip a m r : Gzip_GoodAa m = Ok true -> 24 <= len m < 2 ^ 63 -> exists m',
  Gzip_WriteAa (a ++ m ++ r) (len a) (Z.of_N (len m)) = Ok (a ++ m' ++ r) /\
  firstn 16 m' = firstn 16 m /\ skipn 24 m' = skipn 24 m /\ len m' = len m /\
  forall buf, firstn 24 buf = firstn 24 m' -> Gzip_ReadAa buf = Ok (Z.of_N (len m)).
Proof.
  intros G L. destruct (good_cases m G) as (h & l & t & E & Lh & Ll & GG); [lia|].
  pose proof (le_enc_length 8 (len m)) as L8. set (e := le_enc 8 (len m)) in *.
  exists (h ++ e ++ t). split; [|split; [|split; [|split]]].
  - unfold Gzip_WriteAa, guard. replace (0 <? Z.of_N (len m))%Z with true by lia. cbn [bind].
    assert (R : file_read (a ++ m ++ r) (len a) 16 = h).
    { unfold file_read. replace (N.to_nat (len a)) with (length a) by (unfold len; lia).
      rewrite skipn_app, skipn_all, Nat.sub_diag. cbn [skipn app]. rewrite E, <- app_assoc.
      change (N.to_nat 16) with 16%nat. rewrite <- Lh, firstn_app, firstn_all, Nat.sub_diag, firstn_O. apply app_nil_r. }
    rewrite R. replace (len h =? 16) with true by (unfold len; rewrite Lh; reflexivity). cbn [bind].
    specialize (GG []). rewrite app_nil_r in GG. rewrite GG. cbn [bind]. f_equal.
    change 16 with (N.of_nat 16). rewrite write_at.
    + rewrite N2Z.id. fold e. f_equal. f_equal. rewrite L8. subst m. rewrite <- Lh at 1. rewrite firstn_app, firstn_all, Nat.sub_diag, firstn_O, app_nil_r.
      f_equal. f_equal. change (16 + 8)%nat with 24%nat. replace 24%nat with (length (h ++ l)) by (rewrite app_length, Lh, Ll; reflexivity).
      rewrite app_assoc, skipn_app, skipn_all, Nat.sub_diag. reflexivity.
    + rewrite N2Z.id. fold e. rewrite L8. unfold len in L. lia.
  - rewrite E. rewrite <- Lh, !firstn_app, !firstn_all, Nat.sub_diag, !firstn_O. reflexivity.
  - assert (SK : forall b, length b = 8%nat -> skipn 24 (h ++ b ++ t) = t).
    { intros b Lb. replace 24%nat with (length (h ++ b)) by (rewrite app_length, Lh, Lb; reflexivity).
      rewrite app_assoc, skipn_app, skipn_all, Nat.sub_diag. reflexivity. }
    rewrite E. rewrite !SK; auto.
  - rewrite E. unfold len. rewrite !app_length, L8, Ll. reflexivity.
  - intros buf Hb. replace 24%nat with (length (h ++ e)) in Hb at 2 by (rewrite app_length, Lh, L8; reflexivity).
    rewrite (app_assoc h e t), firstn_app, firstn_all, Nat.sub_diag, firstn_O, app_nil_r in Hb.
    rewrite <- (firstn_skipn 24 buf), Hb, <- app_assoc. apply read_aa; auto. lia.
Qed.

Lemma vsb_aa gzip level t p : Gzip_Vsb gzip level t = Ok p -> len p < 2 ^ 63 ->
  Gzip_ReadAa p = Ok (Z.of_N (len p)) /\ len p = len (gzip level t) /\ gunzip p = gunzip (gzip level t).
Proof.
  unfold Gzip_Vsb. set (q := gzip level t). destruct (Gzip_GoodAa q) as [b| | |] eqn:G; try discriminate.
  cbn [bind]. unfold guard. destruct b; [|discriminate]. cbn [bind].
  destruct (len q <? 24) eqn:L; [discriminate|]. apply N.ltb_ge in L. intros H Lp.
  destruct (good_cases q G L) as (h & l & m & E & Lh & Ll & GG).
  set (e := le_enc 8 (len q)) in *. pose proof (le_enc_length 8 (len q)) as L8. fold e in L8.
  assert (P : p = h ++ e ++ m).
  { assert (Hp : p = file_write q 16 e) by congruence. rewrite Hp.
    pose proof (write_at [] q [] e 16) as W. rewrite !app_nil_r in W. cbn [app] in W.
    change (len [] + N.of_nat 16) with 16 in W. rewrite W by (rewrite L8; unfold len in L; lia).
    rewrite E, L8. rewrite <- Lh at 1. rewrite firstn_app, firstn_all, Nat.sub_diag, firstn_O, app_nil_r. f_equal. f_equal.
    change (16 + 8)%nat with 24%nat. replace 24%nat with (length (h ++ l)) by (rewrite app_length, Lh, Ll; reflexivity).
    rewrite app_assoc, skipn_app, skipn_all, Nat.sub_diag. reflexivity. }
  assert (LL : len p = len q). { rewrite P, E. unfold len. rewrite !app_length, L8, Ll. reflexivity. }
  split; [|split; auto].
  - rewrite LL, P. apply read_aa; auto. lia.
  - rewrite P, E. destruct (set_nth_good _ (GG [])) as (xfl & rest & _ & EH). rewrite app_nil_r in EH.
    assert (rest = []) as ->. { destruct rest; auto. rewrite EH in Lh. rewrite app_length in Lh. simpl in Lh. lia. }
    rewrite app_nil_r in EH. unfold gunzip. rewrite EH. rewrite (app_assoc _ e m), (app_assoc _ l m).
    rewrite !aa_head_skip by auto. reflexivity.
Qed.

Lemma read_aa_safe p : len p < 16 \/ 24 <= len p -> Gzip_ReadAa p <> UB.
Proof.
  intros H. unfold Gzip_ReadAa. unfold Gzip_GoodAa, guard. destruct (16 <=? len p) eqn:A; [|discriminate]. cbn [bind].
  set (b := (if negb (nth 8 (firstn 16 p) 0 =? 2) && _ then _ else _) : res bool).
  assert (Hb : exists v, b = Ok v). { unfold b. destruct (_ && _); eauto. }
  destruct Hb as (v & ->). cbn [bind]. destruct v; [|discriminate]. cbn [bind].
  replace (len p <? 24) with false by lia. destruct (0 <? _)%Z; discriminate.
Qed.
