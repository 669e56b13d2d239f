(* The decoder of InflateSpec depends on nothing but the bits it uses, and
   earlier output does not matter to a stream that decodes on its own. *)
From Verif Require Import Base BaseLemmas ListLemmas InflateSpec.
From Coq Require Import ZifyBool ZifyNat ZifyN Lia.
Open Scope N_scope.

Lemma take_loc n : forall b a r, take n b = Some (a, r) ->
  b = a ++ r /\ length a = n /\ forall y, take n (a ++ y) = Some (a, y).
Proof.
  induction n as [|n IH]; intros b a r H; cbn [take] in H.
  - injection H as <- <-. auto.
  - destruct b as [|x b]; [discriminate|]. destruct (take n b) as [[a' r']|] eqn:E; [|discriminate].
    injection H as <- <-. apply IH in E. destruct E as (-> & L & E). repeat split.
    + simpl. auto.
    + intros y. cbn [app take]. rewrite E. auto.
Qed.

Lemma getn_loc n b a r : getn n b = Some (a, r) ->
  exists p, b = p ++ r /\ length p = n /\ forall y, getn n (p ++ y) = Some (a, y).
Proof.
  unfold getn. destruct (take n b) as [[a' r']|] eqn:E; [|discriminate]. intros H. injection H as <- <-.
  apply take_loc in E. destruct E as (-> & L & E). exists a'. repeat split; auto.
  intros y. rewrite E. auto.
Qed.

Lemma getbytes_loc n : forall b a r, getbytes n b = Some (a, r) ->
  exists p, b = p ++ r /\ length p = (8 * n)%nat /\ forall y, getbytes n (p ++ y) = Some (a, y).
Proof.
  induction n as [|n IH]; intros b a r H; cbn [getbytes] in H.
  - injection H as <- <-. exists []. auto.
  - unfold getbyte in H. destruct (getn 8 b) as [[x r1]|] eqn:E; [|discriminate].
    destruct (getbytes n r1) as [[l r2]|] eqn:E2; [|discriminate]. injection H as <- <-.
    apply getn_loc in E. destruct E as (p & -> & Lp & E). apply IH in E2. destruct E2 as (q & -> & Lq & E2).
    exists (p ++ q). repeat split.
    + rewrite app_assoc. auto.
    + unfold bits in *. rewrite app_length. lia.
    + intros y. rewrite <- app_assoc. cbn [getbytes]. unfold getbyte. rewrite E, E2. auto.
Qed.

Lemma huff_dec_loc counts : forall syms code first index b s r,
  huff_dec counts syms code first index b = Some (s, r) ->
  exists p, b = p ++ r /\ (0 < length p)%nat /\
    forall y, huff_dec counts syms code first index (p ++ y) = Some (s, y).
Proof.
  induction counts as [|c counts IH]; intros syms code first index b s r H; cbn [huff_dec] in *; [discriminate|].
  destruct b as [|x b]; [discriminate|].
  destruct (code + (if x then 1 else 0) <? first + c) eqn:C.
  - destruct (nth_error syms _) eqn:E; [|discriminate]. injection H as <- <-. exists [x]. repeat split; auto.
    intros y. cbn [app]. rewrite C, E. auto.
  - apply IH in H. destruct H as (p & -> & Lp & H). exists (x :: p). repeat split; [simpl; lia|].
    intros y. cbn [app]. rewrite C. apply H.
Qed.

Lemma getsym_loc h b s r : getsym h b = Some (s, r) ->
  exists p, b = p ++ r /\ (0 < length p)%nat /\ forall y, getsym h (p ++ y) = Some (s, y).
Proof. apply huff_dec_loc. Qed.

Definition same8 (x y : bits) : Prop := (length x mod 8 = length y mod 8)%nat.

Lemma same8_app p x y : same8 x y -> same8 (p ++ x) (p ++ y).
Proof.
  unfold same8. intros H. rewrite !app_length. rewrite Nat.add_mod, H, <- Nat.add_mod by lia. auto.
Qed.
Lemma same8_sym x y : same8 x y -> same8 y x. Proof. unfold same8. auto. Qed.

(* align removes the same prefix whatever follows *)
Lemma align_loc b : exists p, b = p ++ align b /\
  forall y, same8 (align b) y -> align (p ++ y) = y.
Proof.
  exists (firstn (length b mod 8) b). split. { unfold align. rewrite firstn_skipn. auto. }
  intros y H. assert (L : length (firstn (length b mod 8) b) = (length b mod 8)%nat).
  { rewrite firstn_length. pose proof (Nat.mod_le (length b) 8). lia. }
  assert (M : (length (align b) mod 8 = 0)%nat).
  { unfold align. rewrite skipn_length. pose proof (Nat.div_mod (length b) 8 ltac:(lia)) as D.
    replace (length b - length b mod 8)%nat with (length b / 8 * 8)%nat by lia. apply Nat.mod_mul. lia. }
  unfold same8 in H. rewrite M in H.
  unfold align at 1. rewrite app_length, L. rewrite Nat.add_mod, Nat.mod_mod, <- H, Nat.add_0_r, Nat.mod_mod by lia.
  rewrite <- L at 1. rewrite skipn_app, skipn_all, Nat.sub_diag. auto.
Qed.

Lemma copy_ext n : forall d w w' v, copy n d w = Some w' -> copy n d (w ++ v) = Some (w' ++ v).
Proof.
  induction n as [|n IH]; intros d w w' v H; cbn [copy] in *.
  - injection H as <-. auto.
  - destruct (nth_error w (N.to_nat (d - 1))) as [y|] eqn:E; [|discriminate].
    rewrite nth_error_app1 by (apply nth_error_Some; congruence). rewrite E.
    change (y :: w ++ v) with ((y :: w) ++ v). auto.
Qed.

Lemma get_match_loc hd s w b w' b' : get_match hd s w b = Some (w', b') ->
  exists p, b = p ++ b' /\ forall v y, get_match hd s (w ++ v) (p ++ y) = Some (w' ++ v, y).
Proof.
  unfold get_match. intros H.
  destruct (nth_error len_base _) as [lb|]; [|discriminate].
  destruct (nth_error len_extra _) as [le|]; [|discriminate].
  destruct (getn le b) as [[e b1]|] eqn:E1; [|discriminate]. apply getn_loc in E1. destruct E1 as (p1 & -> & _ & E1).
  destruct (getsym hd b1) as [[ds b2]|] eqn:E2; [|discriminate]. apply getsym_loc in E2. destruct E2 as (p2 & -> & _ & E2).
  destruct (nth_error dist_base _) as [db|] eqn:D1; [|discriminate].
  destruct (nth_error dist_extra _) as [de|] eqn:D2; [|discriminate].
  destruct (getn de b2) as [[y b3]|] eqn:E3; [|discriminate]. apply getn_loc in E3. destruct E3 as (p3 & -> & _ & E3).
  destruct (copy _ _ w) as [w1|] eqn:E4; [|discriminate]. injection H as <- <-.
  exists (p1 ++ p2 ++ p3). rewrite <- !app_assoc. split; auto. intros v z.
  rewrite <- !app_assoc. rewrite E1, E2, D1, D2, E3, (copy_ext _ _ _ _ v E4). auto.
Qed.

Lemma inf_codes_loc f : forall hl hd w b w' b', inf_codes f hl hd w b = Some (w', b') ->
  exists p, b = p ++ b' /\ (0 < length p)%nat /\
    forall v y g, (length p < g)%nat -> inf_codes g hl hd (w ++ v) (p ++ y) = Some (w' ++ v, y).
Proof.
  induction f as [|f IH]; intros hl hd w b w' b' H; cbn [inf_codes] in H; [discriminate|].
  destruct (getsym hl b) as [[s b1]|] eqn:E; [|discriminate]. apply getsym_loc in E. destruct E as (p & -> & Lp & E).
  destruct (s <? 256) eqn:S1.
  - apply IH in H. destruct H as (q & -> & Lq & H). exists (p ++ q). unfold bits in *. rewrite app_length, <- app_assoc.
    repeat split; auto; [lia|]. intros v y g Hg. destruct g as [|g]; [lia|]. cbn [inf_codes].
    rewrite <- app_assoc, E, S1. change (s :: w ++ v) with ((s :: w) ++ v). apply H. lia.
  - destruct (s =? 256) eqn:S2.
    + injection H as <- <-. exists p. repeat split; auto. intros v y g Hg. destruct g as [|g]; [lia|]. cbn [inf_codes].
      rewrite E, S1, S2. auto.
    + destruct (get_match hd s w b1) as [[w1 b2]|] eqn:E2; [|discriminate].
      apply get_match_loc in E2. destruct E2 as (p2 & -> & E2).
      apply IH in H. destruct H as (q & -> & Lq & H). exists (p ++ p2 ++ q). unfold bits in *. rewrite !app_length, <- !app_assoc.
      repeat split; auto; [lia|]. intros v y g Hg. destruct g as [|g]; [lia|]. cbn [inf_codes].
      rewrite <- !app_assoc, E, S1, S2, E2. apply H. lia.
Qed.

Lemma inf_stored_loc w b w' b' : inf_stored w b = Some (w', b') ->
  exists p, b = p ++ b' /\ forall v y, same8 b' y -> inf_stored (w ++ v) (p ++ y) = Some (w' ++ v, y).
Proof.
  unfold inf_stored. intros H. destruct (align_loc b) as (p0 & Eb & A).
  destruct (getbytes 4 (align b)) as [[l b1]|] eqn:E; [|discriminate]. apply getbytes_loc in E. destruct E as (p1 & Ea & L1 & E).
  destruct l as [|l0 [|l1 [|n0 [|n1 [|]]]]]; try discriminate.
  destruct ((l0 + n0 =? 255) && (l1 + n1 =? 255)) eqn:C; [|discriminate].
  destruct (getbytes (N.to_nat (l0 + 256 * l1)) b1) as [[d b2]|] eqn:E2; [|discriminate].
  apply getbytes_loc in E2. destruct E2 as (p2 & E2b & L2 & E2). injection H as <- <-.
  exists (p0 ++ p1 ++ p2). split. { rewrite <- !app_assoc, <- E2b, <- Ea. auto. }
  intros v y Hy. rewrite <- !app_assoc. rewrite A.
  - rewrite E, C, E2, app_assoc. auto.
  - rewrite Ea, E2b. apply same8_app, same8_app. auto.
Qed.

Lemma get_clens_loc n : forall b l r, get_clens n b = Some (l, r) ->
  exists p, b = p ++ r /\ forall y, get_clens n (p ++ y) = Some (l, y).
Proof.
  induction n as [|n IH]; intros b l r H; cbn [get_clens] in *.
  - injection H as <- <-. exists []. auto.
  - destruct (getn 3 b) as [[z b1]|] eqn:E; [|discriminate]. apply getn_loc in E. destruct E as (p & -> & _ & E).
    destruct (get_clens n b1) as [[l1 b2]|] eqn:E2; [|discriminate]. injection H as <- <-.
    apply IH in E2. destruct E2 as (q & -> & E2). exists (p ++ q). rewrite <- app_assoc. split; auto.
    intros y. rewrite <- app_assoc, E, E2. auto.
Qed.

Lemma get_lens_loc f : forall h n acc b l r, get_lens f h n acc b = Some (l, r) ->
  exists p, b = p ++ r /\ forall y, get_lens f h n acc (p ++ y) = Some (l, y).
Proof.
  induction f as [|f IH]; intros h n acc b l r H; cbn [get_lens] in *; [discriminate|].
  destruct (Nat.eqb (length acc) n). { injection H as <- <-. exists []. auto. }
  destruct (Nat.ltb n (length acc)); [discriminate|].
  destruct (getsym h b) as [[s b1]|] eqn:E; [|discriminate]. apply getsym_loc in E. destruct E as (p & -> & _ & E).
  destruct (s <? 16) eqn:S1.
  { apply IH in H. destruct H as (q & -> & H). exists (p ++ q). rewrite <- app_assoc. split; auto.
    intros y. rewrite <- app_assoc, E, S1. auto. }
  destruct (s =? 16) eqn:S2.
  { destruct acc as [|a acc]; [discriminate|].
    destruct (getn 2 b1) as [[z b2]|] eqn:E2; [|discriminate]. apply getn_loc in E2. destruct E2 as (p2 & -> & _ & E2).
    apply IH in H. destruct H as (q & -> & H). exists (p ++ p2 ++ q). rewrite <- !app_assoc. split; auto.
    intros y. rewrite <- !app_assoc, E, S1, S2, E2. auto. }
  destruct (s =? 17) eqn:S3.
  { destruct (getn 3 b1) as [[z b2]|] eqn:E2; [|discriminate]. apply getn_loc in E2. destruct E2 as (p2 & -> & _ & E2).
    apply IH in H. destruct H as (q & -> & H). exists (p ++ p2 ++ q). rewrite <- !app_assoc. split; auto.
    intros y. rewrite <- !app_assoc, E, S1, S2, S3, E2. auto. }
  destruct (getn 7 b1) as [[z b2]|] eqn:E2; [|discriminate]. apply getn_loc in E2. destruct E2 as (p2 & -> & _ & E2).
  apply IH in H. destruct H as (q & -> & H). exists (p ++ p2 ++ q). rewrite <- !app_assoc. split; auto.
  intros y. rewrite <- !app_assoc, E, S1, S2, S3, E2. auto.
Qed.

Lemma get_tables_loc b hl hd r : get_tables b = Some (hl, hd, r) ->
  exists p, b = p ++ r /\ forall y, get_tables (p ++ y) = Some (hl, hd, y).
Proof.
  unfold get_tables. intros H.
  destruct (getn 5 b) as [[hlit b1]|] eqn:E1; [|discriminate]. apply getn_loc in E1. destruct E1 as (p1 & -> & _ & E1).
  destruct (getn 5 b1) as [[hdist b2]|] eqn:E2; [|discriminate]. apply getn_loc in E2. destruct E2 as (p2 & -> & _ & E2).
  destruct (getn 4 b2) as [[hclen b3]|] eqn:E3; [|discriminate]. apply getn_loc in E3. destruct E3 as (p3 & -> & _ & E3).
  destruct (get_clens _ b3) as [[cl b4]|] eqn:E4; [|discriminate]. apply get_clens_loc in E4. destruct E4 as (p4 & -> & E4).
  destruct (mk_huff (place_clens cl)) as [hc|] eqn:M1; [|discriminate].
  destruct (get_lens _ hc _ [] b4) as [[ls b5]|] eqn:E5; [|discriminate]. apply get_lens_loc in E5. destruct E5 as (p5 & -> & E5).
  destruct (mk_huff (firstn _ ls)) eqn:M2; [|discriminate]. destruct (mk_huff (skipn _ ls)) eqn:M3; [|discriminate].
  injection H as <- <- <-. exists (p1 ++ p2 ++ p3 ++ p4 ++ p5). rewrite <- !app_assoc. split; auto.
  intros y. rewrite <- !app_assoc, E1, E2, E3, E4, M1, E5, M2, M3. auto.
Qed.

Lemma inf_block_loc w b fin w' b' : inf_block w b = Some (fin, w', b') ->
  exists p, b = p ++ b' /\ (0 < length p)%nat /\
    forall v y, same8 b' y -> inf_block (w ++ v) (p ++ y) = Some (fin, w' ++ v, y).
Proof.
  unfold inf_block. intros H.
  destruct (getn 1 b) as [[f b1]|] eqn:E1; [|discriminate]. apply getn_loc in E1. destruct E1 as (p1 & -> & L1 & E1).
  destruct (getn 2 b1) as [[ty b2]|] eqn:E2; [|discriminate]. apply getn_loc in E2. destruct E2 as (p2 & -> & L2 & E2).
  destruct (ty =? 0) eqn:T0.
  { destruct (inf_stored w b2) as [[w1 b3]|] eqn:E3; [|discriminate]. apply inf_stored_loc in E3. destruct E3 as (p3 & -> & E3).
    injection H as <- <- <-. exists (p1 ++ p2 ++ p3). rewrite <- !app_assoc. unfold bits in *. rewrite !app_length.
    repeat split; auto; [lia|]. intros v y Hy. rewrite <- !app_assoc, E1, E2, T0, E3; auto. }
  destruct (ty =? 1) eqn:T1.
  { destruct (mk_huff fixed_lens) as [hl|]; [|discriminate]. destruct (mk_huff fixed_dist) as [hd|]; [|discriminate].
    destruct (inf_codes (S (length b2)) hl hd w b2) as [[w1 b3]|] eqn:E3; [|discriminate].
    apply inf_codes_loc in E3. destruct E3 as (p3 & -> & L3 & E3).
    injection H as <- <- <-. exists (p1 ++ p2 ++ p3). rewrite <- !app_assoc. unfold bits in *. rewrite !app_length.
    repeat split; auto; [lia|]. intros v y Hy. rewrite <- !app_assoc, E1, E2, T0, T1, E3; auto.
    rewrite app_length. lia. }
  destruct (ty =? 2) eqn:T2; [|discriminate].
  destruct (get_tables b2) as [[[hl hd] b3]|] eqn:E4; [|discriminate]. apply get_tables_loc in E4. destruct E4 as (p4 & -> & E4).
  destruct (inf_codes (S (length b3)) hl hd w b3) as [[w1 b4]|] eqn:E3; [|discriminate].
  apply inf_codes_loc in E3. destruct E3 as (p3 & -> & L3 & E3).
  injection H as <- <- <-. exists (p1 ++ p2 ++ p4 ++ p3). rewrite <- !app_assoc. unfold bits in *. rewrite !app_length.
  repeat split; auto; [lia|]. intros v y Hy. rewrite <- !app_assoc, E1, E2, T0, T1, T2, E4, E3; auto.
  rewrite app_length. lia.
Qed.

Lemma inf_blocks_loc f : forall w b w' b', inf_blocks f w b = Some (w', b') ->
  exists p, b = p ++ b' /\
    forall v y g, same8 b' y -> (length p < g)%nat -> inf_blocks g (w ++ v) (p ++ y) = Some (w' ++ v, y).
Proof.
  induction f as [|f IH]; intros w b w' b' H; cbn [inf_blocks] in H; [discriminate|].
  destruct (inf_block w b) as [[[fin w1] b1]|] eqn:E; [|discriminate].
  apply inf_block_loc in E. destruct E as (p & -> & Lp & E). destruct fin.
  - injection H as <- <-. exists p. split; auto. intros v y g Hy Hg. destruct g as [|g]; [lia|]. cbn [inf_blocks].
    rewrite E; auto.
  - apply IH in H. destruct H as (q & -> & H). exists (p ++ q). rewrite <- app_assoc. split; auto.
    intros v y g Hy Hg. unfold bits in *. rewrite app_length in Hg. destruct g as [|g]; [lia|]. cbn [inf_blocks].
    rewrite <- app_assoc, E by (apply same8_app; auto). apply H; auto. lia.
Qed.

(* ------------------------------------------------------------------ *)
(* bytes and bits *)

Lemma byte_bits_len x : length (byte_bits x) = 8%nat. Proof. reflexivity. Qed.

Lemma to_bits_len d : length (to_bits d) = (8 * length d)%nat.
Proof. induction d as [|x d IH]; auto. unfold to_bits in *. cbn [flat_map]. rewrite app_length, IH, byte_bits_len. simpl. lia. Qed.

Lemma to_bits_app a b : to_bits (a ++ b) = to_bits a ++ to_bits b.
Proof. unfold to_bits. rewrite flat_map_app. auto. Qed.

Lemma same8_bytes a b : same8 (to_bits a) (to_bits b).
Proof. unfold same8. rewrite !to_bits_len, !(Nat.mul_comm 8), !Nat.mod_mul by lia. auto. Qed.

Lemma take_app n b r : length b = n -> take n (b ++ r) = Some (b, r).
Proof.
  revert n. induction b as [|x b IH]; intros n H; destruct n; simpl in H; try lia; cbn [take app]; auto.
  rewrite IH by lia. auto.
Qed.

Lemma getn_app n b r : length b = n -> getn n (b ++ r) = Some (bits_val b, r).
Proof. intros H. unfold getn. rewrite take_app; auto. Qed.

Lemma bits_val_byte x : x < 256 -> bits_val (byte_bits x) = x.
Proof.
  intros H. assert (A : forallb (fun x => bits_val (byte_bits x) =? x) (map N.of_nat (seq 0 256)) = true) by (vm_compute; auto).
  rewrite forallb_forall in A. apply N.eqb_eq. apply A. apply in_map_iff. exists (N.to_nat x).
  split; [lia|]. apply in_seq. lia.
Qed.

Lemma getbytes_app d : is_bytes d -> forall n r, length d = n -> getbytes n (to_bits d ++ r) = Some (d, r).
Proof.
  induction d as [|x d IH]; intros Hd n r Hn; destruct n; simpl in Hn; try lia; cbn [getbytes]; auto.
  apply Forall_cons_iff in Hd. destruct Hd as [Hx Hd]. unfold getbyte, to_bits. cbn [flat_map].
  rewrite <- app_assoc, getn_app by reflexivity. fold (to_bits d). rewrite IH by (auto; lia).
  rewrite bits_val_byte by auto. auto.
Qed.

(* ------------------------------------------------------------------ *)
(* non-final blocks *)

Lemma blocks_loc w b w' b' : blocks w b w' b' -> exists p, b = p ++ b' /\
  forall v y, same8 b' y -> blocks (w ++ v) (p ++ y) (w' ++ v) y.
Proof.
  intros H. induction H as [w b|w b w1 b1 w2 b2 E H IH].
  - exists []. split; auto. intros. constructor.
  - apply inf_block_loc in E. destruct E as (p & -> & _ & E). destruct IH as (q & -> & IH).
    exists (p ++ q). rewrite <- app_assoc. split; auto. intros v y Hy. rewrite <- app_assoc.
    econstructor; [apply E; apply same8_app; auto|]. apply IH; auto.
Qed.

Lemma blocks_trans w b w1 b1 w2 b2 : blocks w b w1 b1 -> blocks w1 b1 w2 b2 -> blocks w b w2 b2.
Proof. intros H. revert w2 b2. induction H; intros; auto. econstructor; eauto. Qed.

Lemma blocks_fin w b w1 b1 w2 b2 : blocks w b w1 b1 -> inf_block w1 b1 = Some (true, w2, b2) ->
  forall fuel, (length b < fuel)%nat -> inf_blocks fuel w b = Some (w2, b2).
Proof.
  intros H. revert w2 b2. induction H as [w b|w b w1 b1 w3 b3 E H IH]; intros w2 b2 F fuel Hf.
  - destruct fuel; [lia|]. cbn [inf_blocks]. rewrite F. auto.
  - destruct fuel; [lia|]. cbn [inf_blocks]. rewrite E. apply IH; auto.
    apply inf_block_loc in E. destruct E as (p & -> & Lp & _). unfold bits in *. rewrite app_length in Hf. lia.
Qed.

(* the empty final blocks *)
Lemma fin_stored w d : inf_block w (to_bits ([1; 0; 0; 255; 255] ++ d)) = Some (true, w, to_bits d).
Proof.
  assert (E : inf_block [] (to_bits [1; 0; 0; 255; 255]) = Some (true, [], [])) by (vm_compute; auto).
  apply inf_block_loc in E. destruct E as (p & E0 & _ & E). rewrite app_nil_r in E0.
  rewrite to_bits_app, E0. apply (E w). apply (same8_bytes []).
Qed.

Lemma fin_fixed w d : exists t, inf_block w (to_bits ([3; 0] ++ d)) = Some (true, w, t ++ to_bits d) /\ length t = 6%nat.
Proof.
  assert (E : inf_block [] (to_bits [3; 0]) = Some (true, [], repeat false 6)) by (vm_compute; auto).
  apply inf_block_loc in E. destruct E as (p & E0 & _ & E).
  exists (repeat false 6). split; [|reflexivity]. rewrite to_bits_app, E0, <- app_assoc. apply (E w).
  rewrite <- (app_nil_r (repeat false 6)) at 1. apply same8_app. apply (same8_bytes []).
Qed.

(* ------------------------------------------------------------------ *)
(* gunzip uses a prefix of the input only *)

Lemma gz_skip_head_loc d r : gz_skip_head d = Some r -> exists h, d = h ++ r /\
  forall x, gz_skip_head (h ++ x) = Some x.
Proof.
  unfold gz_skip_head. intros H.
  repeat match type of H with
  | match ?l with _ => _ end = Some _ => is_var l; destruct l; try discriminate H
  end.
  match type of H with context [if ?f =? 0 then _ else _] => rename f into fl end.
  destruct (fl =? 0) eqn:F0.
  { injection H as <-. eexists (_ :: _ :: _ :: _ :: _ :: _ :: _ :: _ :: _ :: _ :: []). split; [reflexivity|].
    intros x. cbn [app]. rewrite F0. auto. }
  destruct (fl =? 4) eqn:F4; [|discriminate].
  repeat match type of H with
  | match ?l with _ => _ end = Some _ => is_var l; destruct l; try discriminate H
  end.
  match type of H with context [Nat.leb ?n (length ?l)] =>
    destruct (Nat.leb n (length l)) eqn:E; [|discriminate]; injection H as <-; apply Nat.leb_le in E;
    eexists (_ :: _ :: _ :: fl :: _ :: _ :: _ :: _ :: _ :: _ :: _ :: _ :: firstn n l) end.
  split.
  - cbn [app]. rewrite firstn_skipn. reflexivity.
  - intros x. cbn [app]. rewrite F0, F4. rewrite app_length, firstn_length.
    rewrite (proj2 (Nat.leb_le _ _)) by lia. f_equal. rewrite skipn_app, firstn_length.
    rewrite skipn_all2 by (rewrite firstn_length; lia). cbn [app].
    replace (_ - _)%nat with 0%nat by lia. auto.
Qed.

Lemma div8 a j : (j < 8)%nat -> ((j + 8 * a) / 8 = a)%nat.
Proof. intros H. rewrite Nat.mul_comm, Nat.div_add by lia. rewrite Nat.div_small by lia. lia. Qed.

Lemma app_same_len {A} (a b c d : list A) : a ++ b = c ++ d -> length b = length d -> a = c /\ b = d.
Proof.
  intros E L. assert (La : length a = length c).
  { apply (f_equal (@length A)) in E. rewrite !app_length in E. lia. }
  clear L. revert c E La. induction a as [|x a IH]; intros [|y c] E La; simpl in *; try lia; auto.
  injection E as -> E. destruct (IH c E ltac:(lia)) as [-> ->]. auto.
Qed.

Theorem gunzip_split d t r : gunzip d = Some (t, r) -> exists m, d = m ++ r /\
  forall x, gunzip (m ++ x) = Some (t, x).
Proof.
  unfold gunzip. intros H. destruct (gz_skip_head d) as [q|] eqn:E; [|discriminate].
  apply gz_skip_head_loc in E. destruct E as (h & -> & E).
  destruct (inf_blocks (S (length (to_bits q))) [] (to_bits q)) as [[w b]|] eqn:F; [|discriminate].
  apply inf_blocks_loc in F. destruct F as (p & Eq & F).
  assert (Lb : (length p + length b = 8 * length q)%nat).
  { rewrite <- to_bits_len, Eq. unfold bits in *. rewrite app_length. auto. }
  assert (Dm := Nat.div_mod (length b) 8 ltac:(lia)). assert (Jm := Nat.mod_upper_bound (length b) 8 ltac:(lia)).
  set (n := (length b / 8)%nat) in *. set (j := (length b mod 8)%nat) in *.
  set (R := skipn (length q - n) q) in *. set (Q1 := firstn (length q - n) q).
  assert (Qe : q = Q1 ++ R) by (unfold Q1, R; rewrite firstn_skipn; auto).
  assert (LR : length R = n). { unfold R. rewrite skipn_length. lia. }
  destruct ((len R <? 8) || negb (le_dec (firstn 4 R) =? crc32 (rev w))
            || negb (le_dec (firstn 4 (skipn 4 R)) =? len (rev w) mod 2 ^ 32)) eqn:G; [discriminate|].
  assert (Ht : t = rev w) by congruence. assert (Hr : r = skipn 8 R) by congruence. clear H. subst t r.
  assert (L8 : (8 <= length R)%nat).
  { apply orb_false_iff in G. destruct G as [G _]. apply orb_false_iff in G. destruct G as [G _].
    apply N.ltb_ge in G. unfold len in G. lia. }
  set (c8 := firstn 8 R). assert (Re : R = c8 ++ skipn 8 R) by (unfold c8; rewrite firstn_skipn; auto).
  assert (L8' : length c8 = 8%nat). { unfold c8. rewrite firstn_length. lia. }
  exists (h ++ Q1 ++ c8). split. { rewrite <- !app_assoc, <- Re, <- Qe. auto. }
  intros x.
  assert (T : exists t8, b = t8 ++ to_bits R /\ length t8 = j /\ p ++ t8 = to_bits Q1).
  { exists (firstn j b). rewrite Qe, to_bits_app in Eq. rewrite <- (firstn_skipn j b) in Eq. rewrite app_assoc in Eq.
    apply app_same_len in Eq; [|rewrite skipn_length, to_bits_len; lia]. destruct Eq as [E1 E2]. rewrite E2.
    rewrite firstn_skipn. repeat split; auto. rewrite firstn_length. lia. }
  clearbody c8. clearbody Q1. clearbody R. clearbody j. clearbody n. destruct T as (t8 & -> & Lt & Ep).
  rewrite <- !app_assoc, E.
  assert (B : to_bits (Q1 ++ c8 ++ x) = p ++ t8 ++ to_bits (c8 ++ x)).
  { rewrite to_bits_app, <- Ep, <- app_assoc. auto. }
  rewrite B. specialize (F [] (t8 ++ to_bits (c8 ++ x)) (S (length (p ++ t8 ++ to_bits (c8 ++ x))))).
  rewrite !app_nil_r in F. cbn [app] in F. rewrite F.
  - assert (L : length (t8 ++ to_bits (c8 ++ x)) = (j + 8 * length (c8 ++ x))%nat).
    { rewrite app_length, to_bits_len. lia. }
    rewrite L, div8 by auto.
    replace (length (Q1 ++ c8 ++ x) - length (c8 ++ x))%nat with (length Q1) by (rewrite (app_length Q1); lia).
    rewrite skipn_app, skipn_all, Nat.sub_diag, skipn_O, app_nil_l.
    assert (E1 : firstn 4 (c8 ++ x) = firstn 4 R).
    { rewrite Re at 1. rewrite !firstn_app. replace (4 - length c8)%nat with 0%nat by lia. auto. }
    assert (E2 : firstn 4 (skipn 4 (c8 ++ x)) = firstn 4 (skipn 4 R)).
    { rewrite Re at 1. rewrite !skipn_app, !firstn_app, !skipn_length.
      replace (4 - (length c8 - 4))%nat with 0%nat by lia. auto. }
    rewrite E1, E2.
    replace (len (c8 ++ x) <? 8) with (len R <? 8).
    2:{ replace (len R <? 8) with false by (symmetry; apply N.ltb_ge; unfold len; lia).
        symmetry. apply N.ltb_ge. unfold len. rewrite app_length. lia. }
    rewrite G. assert (S8 : skipn 8 (c8 ++ x) = x) by (rewrite <- L8', skipn_app, skipn_all, Nat.sub_diag; auto).
    rewrite S8. auto.
  - unfold same8. rewrite !app_length, !to_bits_len. rewrite !(Nat.mul_comm 8), !Nat.mod_add by lia. auto.
  - unfold bits in *. rewrite app_length. lia.
Qed.
