(* The toy of StoreToy is as zlib and libmd are expected to be. *)
From Coq Require Import String.
From Coq Require Import ZifyBool ZifyNat ZifyN.
From Verif Require Import Base BaseLemmas ListLemmas IndexModel IndexSpec HeaderModel HeaderSpec HeaderProofs InflateSpec InflateProofs
  GzipModel GzipSpec GzipProofs ProgModel StoreModel StoreSpec StoreHdr StoreToy.
Open Scope string_scope.
Open Scope list_scope.
Open Scope N_scope.
Ltac Zify.zify_post_hook ::= Z.div_mod_to_equations.

Lemma sblock_inf w d r : is_bytes d -> len d < 65536 ->
  inf_block w (to_bits (sblock d ++ r)) = Some (false, rev d ++ w, to_bits r).
Proof.
  intros B LD. unfold sblock. set (h := [len d mod 256; len d / 256; 255 - len d mod 256; 255 - len d / 256]).
  assert (HB : is_bytes h) by (subst h; repeat constructor; lia).
  change ([0; len d mod 256; len d / 256; 255 - len d mod 256; 255 - len d / 256]) with (0 :: h).
  rewrite <- app_assoc. cbn [app]. change (to_bits (0 :: h ++ d ++ r)) with (byte_bits 0 ++ to_bits (h ++ d ++ r)).
  change (byte_bits 0) with ([false] ++ [false; false] ++ repeat false 5). rewrite <- !app_assoc.
  unfold inf_block. rewrite (getn_app 1 [false]) by auto. rewrite (getn_app 2 [false; false]) by auto.
  change (bits_val [false; false] =? 0) with true. cbv iota. unfold inf_stored.
  assert (A : align (repeat false 5 ++ to_bits (h ++ d ++ r)) = to_bits (h ++ d ++ r)).
  { unfold align. rewrite app_length, to_bits_len. change (List.length (repeat false 5)) with 5%nat.
    replace ((5 + 8 * Datatypes.length (h ++ d ++ r)) mod 8)%nat with 5%nat by lia. reflexivity. }
  rewrite A. rewrite to_bits_app. rewrite (getbytes_app h HB) by reflexivity. unfold h at 1. cbv iota.
  replace (len d mod 256 + (255 - len d mod 256) =? 255) with true by lia.
  replace (len d / 256 + (255 - len d / 256) =? 255) with true by lia. cbn [andb].
  replace (len d mod 256 + 256 * (len d / 256)) with (len d) by lia.
  rewrite to_bits_app, (getbytes_app d B) by (unfold len; lia). reflexivity.
Qed.

Lemma head_skip x : gz_skip_head (toy_head ++ x) = Some x.
Proof. apply (aa_head_skip 2 (le_enc 8 0)). reflexivity. Qed.

Lemma sblock_len d : len (sblock d) = len d + 5.
Proof. unfold sblock. rewrite len_app. change (len [_; _; _; _; _]) with 5. lia. Qed.

Lemma tail_len d : len (toy_tail d) = 10.
Proof. unfold toy_tail. rewrite !len_app, !le_enc_len. reflexivity. Qed.

(* what has been put out and what is queued *)
Definition tinv (s : toyz) (d o : bytes) : Prop :=
  t_end s = false /\ t_dat s = d /\ len (t_q s) <= 24 /\
  exists B, o ++ t_q s = toy_head ++ B /\ (is_bytes d -> blocks [] (to_bits B) (rev d) []).

Lemma len_first (l : bytes) n : len (firstn (N.to_nat n) l) = N.min n (len l).
Proof. unfold len. rewrite firstn_length. lia. Qed.
Lemma len_skip (l : bytes) n : len (skipn (N.to_nat n) l) = len l - n.
Proof. unfold len. rewrite skipn_length. lia. Qed.

Lemma blocks_app B C w w' : blocks [] (to_bits B) w [] -> inf_block w (to_bits C) = Some (false, w', to_bits []) ->
  blocks [] (to_bits (B ++ C)) w' [].
Proof.
  intros H1 H2. apply blocks_loc in H1. destruct H1 as (p & E & H1). rewrite app_nil_r in E. rewrite to_bits_app, E.
  eapply blocks_trans; [|eapply blocks_cons; [exact H2|constructor]]. specialize (H1 [] (to_bits C)).
  rewrite !app_nil_r in H1. apply H1. apply (same8_bytes []). 
Qed.

Lemma blocks_apps B C w w' : blocks [] (to_bits B) w [] -> blocks [] (to_bits C) w' [] ->
  blocks [] (to_bits (B ++ C)) (w' ++ w) [].
Proof.
  intros H1 H2. apply blocks_loc in H1. destruct H1 as (p & E & H1). rewrite app_nil_r in E. rewrite to_bits_app, E.
  eapply blocks_trans.
  - specialize (H1 [] (to_bits C)). rewrite !app_nil_r in H1. apply H1. apply (same8_bytes []).
  - apply blocks_loc in H2. destruct H2 as (q & E2 & H2). rewrite app_nil_r in E2. specialize (H2 w []). rewrite !app_nil_r in H2.
    rewrite E2. apply H2. apply (same8_bytes [] []).
Qed.

Definition zeros : bytes := repeat 0 (N.to_nat zlen).

Lemma zblock_inf : exists b, inf_block [] (to_bits zblock) = Some (false, zeros, b) /\
  inf_block zeros b = Some (false, zeros, []).
Proof.
  destruct (inf_block [] (to_bits zblock)) as [[[fin w] b]|] eqn:E.
  - exists b.
    assert (F : match inf_block [] (to_bits zblock) with
                | Some (f, w, b) => negb f && bytes_eqb w zeros &&
                    match inf_block zeros b with Some (false, w', []) => bytes_eqb w' zeros | _ => false end
                | None => false end = true) by (vm_compute; reflexivity).
    rewrite E in F. apply andb_prop in F. destruct F as (F & F3). apply andb_prop in F. destruct F as (F1 & F2).
    apply bytes_eqb_true in F2. subst w. destruct fin; [discriminate|]. split; [reflexivity|].
    destruct (inf_block zeros b) as [[[f w] x]|]; [|discriminate]. destruct f; [discriminate|]. destruct x; [|discriminate].
    apply bytes_eqb_true in F3. subst w. reflexivity.
  - exfalso. assert (F : match inf_block [] (to_bits zblock) with None => false | _ => true end = true) by (vm_compute; reflexivity).
    rewrite E in F. discriminate.
Qed.

Lemma zblocks : blocks [] (to_bits zblock) zeros [].
Proof.
  destruct zblock_inf as (b & E1 & E2). eapply blocks_cons; [exact E1|]. eapply blocks_cons; [exact E2|constructor].
Qed.

Lemma all_zero (l : bytes) : forallb (N.eqb 0) l = true -> l = repeat 0 (List.length l).
Proof. induction l as [|x l IH]; intros H; [auto|]. cbn [forallb] in H. apply andb_prop in H. destruct H as (H1 & H2). cbn [List.length repeat]. rewrite <- IH by auto. f_equal. lia. Qed.

Lemma repeat_rev {A} (x : A) n : rev (repeat x n) = repeat x n.
Proof. induction n as [|n IH]; [auto|]. cbn [repeat rev]. rewrite IH. symmetry. apply repeat_cons. Qed.

Lemma zblock_len : len zblock = 69.
Proof. reflexivity. Qed.

Lemma tinv_init : tinv (mkToy toy_head [] false) [] [].
Proof.
  split; [reflexivity|]. split; [reflexivity|]. split; [vm_compute; discriminate|]. exists []. split; [reflexivity|]. intros _. constructor.
Qed.

Lemma tinv_step s d o i av fl s' c out : tinv s d o -> fl = ZNone \/ fl = ZPartial -> toy_deflate s i av fl = (s', c, out, ZOk) ->
  tinv s' (d ++ firstn (N.to_nat c) i) (o ++ out).
Proof.
  intros IH FL E.
  destruct IH as (I1 & I2 & I3 & B & I4 & I5). unfold toy_deflate in E. destruct (av =? 0) eqn:A; [discriminate|].
  set (z := (len (t_q s) + len zblock <=? av) && (zlen <=? len i) && forallb (N.eqb 0) (firstn (N.to_nat zlen) i)) in *.
  set (c0 := if z then zlen else N.min (len i) (N.min 60000 (av - len (t_q s) - 5))) in *. set (d0 := firstn (N.to_nat c0) i) in *.
  set (b0 := if z then zblock else if 0 <? c0 then sblock d0 else []) in *.
  assert (L0 : len d0 = c0).
  { unfold d0. rewrite len_first. unfold c0. destruct z eqn:Z; [|clear; lia]. unfold z in Z. apply andb_prop in Z. destruct Z as (Z & _). apply andb_prop in Z.
    destruct Z as (_ & Z). clear - Z. lia. }
  assert (E' : s' = mkToy (skipn (N.to_nat av) (t_q s ++ b0)) (t_dat s ++ d0) (t_end s) /\ c = c0 /\
               out = firstn (N.to_nat av) (t_q s ++ b0)).
  { destruct FL as [-> | ->]; injection E as <- <- <-; auto. }
  destruct E' as (-> & -> & ->). fold d0. unfold tinv. cbn [t_q t_dat t_end]. split; [auto|]. split; [congruence|]. split.
  + rewrite len_skip, len_app. unfold b0. destruct z eqn:Z.
    * unfold z in Z. apply andb_prop in Z. destruct Z as (Z & _). apply andb_prop in Z. destruct Z as (Z & _). rewrite zblock_len in *. clear - I3 Z. lia.
    * assert (H0 : 0 < c0 -> c0 <= av - len (t_q s) - 5) by (unfold c0; clear; lia). clearbody c0.
      destruct (0 <? c0) eqn:Z0; [rewrite sblock_len|rewrite len_nil]; clear - I3 L0 H0 A Z0; lia.
  + exists (B ++ b0). split.
    * rewrite <- app_assoc, firstn_skipn, app_assoc, I4, <- app_assoc. auto.
    * intros HB. apply Forall_app in HB. destruct HB as (HB1 & HB2). unfold b0. destruct z eqn:Z.
      -- rewrite rev_app_distr. replace (rev d0) with zeros; [apply blocks_apps; [auto|apply zblocks]|].
         unfold z in Z. apply andb_prop in Z. destruct Z as (Z1 & Z). apply andb_prop in Z1. destruct Z1 as (_ & Z1).
         apply all_zero in Z. unfold d0, c0. rewrite Z, repeat_rev. unfold zeros. f_equal. rewrite firstn_length. unfold len in Z1. clear - Z1. lia.
      -- destruct (0 <? c0) eqn:Z0.
         ++ apply blocks_app with (w := rev d); auto. rewrite rev_app_distr. rewrite <- (app_nil_r (sblock d0)). apply sblock_inf; auto.
            rewrite L0. unfold c0. clear. lia.
         ++ rewrite app_nil_r. replace d0 with (@nil N); [rewrite app_nil_r; auto|]. clear - L0 Z0. destruct d0; [auto|]. unfold len in L0. cbn [List.length] in L0. lia.
Qed.

Lemma zran_tinv s d o : zran toy s d o -> tinv s d o.
Proof.
  intros H. induction H as [|s d o i av fl s' c out H IH FL E]; [apply tinv_init|]. exact (tinv_step s d o i av fl s' c out IH FL E).
Qed.

Lemma sync_inf w : inf_block w (to_bits [0; 0; 0; 255; 255]) = Some (false, w, to_bits []).
Proof. apply (sblock_inf w [] []); [constructor|reflexivity]. Qed.

Lemma chunks_blocks t : is_bytes t -> forall w, exists l, chunks (N.to_nat 60000) t = l /\
  blocks w (to_bits (flat_map sblock l)) (rev t ++ w) [] /\ len (flat_map sblock l) <= len t + 5 * ((len t + 59999) / 60000) /\ len t <= len (flat_map sblock l).
Proof.
  remember (List.length t) as n eqn:En. assert (LE : (List.length t <= n)%nat) by lia. clear En. revert t LE.
  induction n as [|n IH]; intros t LE B w.
  - destruct t; [|cbn [List.length] in LE; lia]. exists []. rewrite chunks_nil. split; [auto|]. split; [constructor|]. split; vm_compute; discriminate.
  - destruct t as [|x t]; [exists []; rewrite chunks_nil; split; [auto|]; split; [constructor|]; split; vm_compute; discriminate|].
    set (u := x :: t) in *. set (a := firstn (N.to_nat 60000) u). set (b := skipn (N.to_nat 60000) u).
    assert (EU : u = a ++ b) by (symmetry; apply firstn_skipn).
    assert (LA : len a = N.min 60000 (len u)) by apply len_first.
    assert (LB : len b = len u - 60000) by apply len_skip.
    assert (LU : 1 <= len u) by (unfold u, len; cbn [List.length]; lia).
    assert (BA : is_bytes a /\ is_bytes b) by (rewrite EU in B; apply Forall_app in B; auto). destruct BA as (BA & BB).
    destruct (IH b) with (w := rev a ++ w) as (l & E1 & E2 & E3 & E4); auto.
    { unfold len in LB. unfold len in LU. lia. }
    exists (a :: l). rewrite chunks_cons by (lia || discriminate). fold a b. rewrite E1. split; [auto|]. cbn [flat_map]. split; [|split].
    + eapply blocks_cons; [apply sblock_inf; auto; lia|]. rewrite EU, rev_app_distr, <- app_assoc. auto.
    + rewrite len_app, sblock_len. clear - E3 LA LB LU. lia.
    + rewrite len_app, sblock_len. clear - E4 LA LB. lia.
Qed.

(* with no input *)
Definition toy_nil (s : toyz) (av : N) (fl : zflush) : toyz * N * bytes * zrc :=
  if av =? 0 then (s, 0, [], ZErr) else
  let q := match fl with
           | ZSync => t_q s ++ [0; 0; 0; 255; 255]
           | ZFinish => if t_end s then t_q s else t_q s ++ toy_tail (t_dat s)
           | _ => t_q s
           end in
  (mkToy (skipn (N.to_nat av) q) (t_dat s) (match fl with ZFinish => true | _ => t_end s end), 0, firstn (N.to_nat av) q,
   match fl, skipn (N.to_nat av) q with ZFinish, [] => ZEnd | _, _ => ZOk end).

Lemma toy_nil_eq s av fl : toy_deflate s [] av fl = toy_nil s av fl.
Proof.
  unfold toy_deflate, toy_nil. destruct (av =? 0); [auto|]. change (zlen <=? len []) with false. rewrite andb_false_r. cbn [andb].
  change (len []) with 0. rewrite N.min_0_l. change (N.to_nat 0) with 0%nat. change (0 <? 0) with false. cbv iota zeta.
  cbn [firstn]. rewrite !app_nil_r. destruct fl; auto.
Qed.

Lemma toy_bounds s i av fl s' c out rc : toy_deflate s i av fl = (s', c, out, rc) -> c <= len i /\ len out <= av.
Proof.
  unfold toy_deflate. destruct (av =? 0) eqn:A.
  - intros E. injection E as <- <- <- <-. split; [lia|apply N.le_0_l].
  - set (z := (len (t_q s) + len zblock <=? av) && (zlen <=? len i) && forallb (N.eqb 0) (firstn (N.to_nat zlen) i)).
    assert (Z : z = true -> zlen <= len i).
    { unfold z. intros Z. apply andb_prop in Z. destruct Z as (Z & _). apply andb_prop in Z. destruct Z as (_ & Z). clear - Z. lia. }
    clearbody z. revert Z. generalize zlen zblock. intros zl zb Z E. injection E as _ <- <- _. rewrite len_first. split; [|lia].
    destruct z; [auto|lia].
Qed.

Lemma toy_room_sync s d o av s' c out rc : tinv s d o -> 2 ^ 19 <= av -> toy_deflate s [] av ZSync = (s', c, out, rc) -> len out < av.
Proof.
  intros Z AV E. destruct Z as (I1 & I2 & I3 & _).
   rewrite toy_nil_eq in E. unfold toy_nil in E. destruct (av =? 0) eqn:A; [lia|]. injection E as _ _ <- _.
  rewrite len_first, len_app. change (len [0; 0; 0; 255; 255]) with 5. lia.
Qed.

Lemma toy_room_fin s d o av1 s1 c1 o1 av s' c out rc : tinv s d o -> toy_deflate s [] av1 ZSync = (s1, c1, o1, ZOk) -> len o1 < av1 ->
  2 ^ 19 <= av -> toy_deflate s1 [] av ZFinish = (s', c, out, rc) -> len out < av.
Proof.
  intros Z E1 L1 AV E. destruct Z as (I1 & I2 & I3 & _).
   rewrite toy_nil_eq in E, E1. unfold toy_nil in E1. destruct (av1 =? 0) eqn:A1; [discriminate|]. injection E1 as <- _ <-.
  rewrite len_first in L1. unfold toy_nil in E. destruct (av =? 0) eqn:A; [lia|]. cbn [t_q t_end t_dat] in E. injection E as _ _ <- _. rewrite I1.
  rewrite len_first, len_app, tail_len, len_skip. lia.
Qed.

Lemma toy_stream s d o av1 s1 c1 o1 av2 s2 c2 o2 : tinv s d o -> is_bytes d -> toy_deflate s [] av1 ZSync = (s1, c1, o1, ZOk) ->
  len o1 < av1 -> toy_deflate s1 [] av2 ZFinish = (s2, c2, o2, ZEnd) -> unsized (o ++ o1 ++ o2) d.
Proof.
  intros Z B E1 L1 E. destruct Z as (I1 & I2 & I3 & BL & I4 & I5).
   rewrite toy_nil_eq in E, E1. unfold toy_nil in E1. destruct (av1 =? 0) eqn:A1; [discriminate|]. injection E1 as <- _ <-.
  rewrite len_first in L1. unfold toy_nil in E. destruct (av2 =? 0) eqn:A; [discriminate|]. cbn [t_q t_end t_dat] in E. injection E as _ _ <- R. rewrite I1 in *.
  rewrite ?I2 in *.
  set (q := t_q s ++ [0; 0; 0; 255; 255]) in *.
  assert (S0 : skipn (N.to_nat av1) q = []).
  { apply skipn_all2. unfold len in L1. lia. }
  assert (F0 : firstn (N.to_nat av1) q = q) by (apply firstn_all2; unfold len in L1; lia). rewrite S0, F0 in *. cbn [app] in R |- *.
  destruct (skipn (N.to_nat av2) (toy_tail d)) eqn:S2; [|discriminate].
  assert (F2 : firstn (N.to_nat av2) (toy_tail d) = toy_tail d) by (rewrite <- (firstn_skipn (N.to_nat av2) (toy_tail d)) at 2; rewrite S2, app_nil_r; auto).
  rewrite F2. exists 2, (BL ++ [0; 0; 0; 255; 255]), [3; 0]. split; [|split; [|split]].
  + unfold q. rewrite !app_assoc, I4. unfold toy_head, gzip_head, toy_tail. rewrite <- !app_assoc. reflexivity.
  + exists (BL ++ [0]). rewrite <- app_assoc. auto.
  + apply blocks_app with (w := rev d); [auto|apply sync_inf].
  + auto.
Qed.

Lemma toy_ok : zlib_ok toy.
Proof.
  split.
  - intros s i av fl s' c out rc E. cbn [toy z_deflate] in E. eapply toy_bounds; eauto.
  - intros s i fl s' c out rc E. cbn [toy z_deflate] in E. unfold toy_deflate in E. cbn [N.eqb] in E. injection E as _ _ _ <-. auto.
  - intros s av s' c out E. cbn [toy z_deflate] in E. rewrite toy_nil_eq in E. unfold toy_nil in E. destruct (av =? 0) eqn:A; [discriminate|].
    injection E as _ _ <- R. match type of R with match skipn ?n ?q with _ => _ end = _ => set (u := q) in *; destruct (skipn n u) as [|z r] eqn:S end; [discriminate|].
    rewrite len_first. apply (f_equal len) in S. rewrite len_skip in S. unfold len at 2 in S. cbn [List.length] in S. lia.
  - intros s d o av s' c out rc Z AV E. apply zran_tinv in Z. exact (toy_room_sync s d o av s' c out rc Z AV E).
  - intros s d o av1 s1 c1 o1 av s' c out rc Z E1 L1 AV E. apply zran_tinv in Z. exact (toy_room_fin s d o av1 s1 c1 o1 av s' c out rc Z E1 L1 AV E).
  - intros s d o av1 s1 c1 o1 av2 s2 c2 o2 Z B E1 L1 E. apply zran_tinv in Z. exact (toy_stream s d o av1 s1 c1 o1 av2 s2 c2 o2 Z B E1 L1 E).
  - intros l t B LT. cbn [toy z_gzip]. unfold toy_gzip. destruct (chunks_blocks t B []) as (ch & E & H1 & H2 & H3).
    rewrite E. rewrite app_nil_r in H1. split; [|split].
    + unfold toy_tail. rewrite <- (app_nil_r (le_enc 4 (len t mod 2 ^ 32))). apply (gunzip_tail toy_head _ _ (rev t)); auto.
      rewrite rev_involutive. auto.
    + rewrite !len_app, tail_len. change (len toy_head) with 24. clear - H2. lia.
    + intros _. rewrite !len_app. lia.
  - intros d. cbn [toy z_sha]. unfold toy_sha. match goal with |- context [hexpad 64 ?x] => generalize x end. intros x. split.
    + unfold len. rewrite hexpad_length. reflexivity.
    + apply Forall_forall. intros c Hc. split.
      * pose proof (hexpad_hex 64 x) as F. rewrite Forall_forall in F. auto.
      * pose proof (hexpad_lower 64 x) as E. clear - E Hc. revert E. generalize (hexpad 64 x) Hc. intros h. induction h as [|a h IH]; intros HI E; [destruct HI|].
        cbn [lower map] in E. injection E as E1 E2. destruct HI as [->|HI]; [|auto]. unfold to_lower in E1. destruct (is_upper c) eqn:U; [|auto].
        exfalso. lia.
Qed.

Lemma zran_const s d o : zran toy_const s d o -> zran toy s d o.
Proof.
  intros H. induction H as [|s d o i av fl s' c out H IH F E]; [apply (zran_0 toy)|]. apply (zran_call toy s d o i av fl s' c out IH F E).
Qed.
Lemma toy_const_ok : zlib_ok toy_const.
Proof.
  pose proof toy_ok as T. destruct T as [T1 T2 T3 T4 T5 T6 T7 T8]. constructor.
  - exact T1.
  - exact T2.
  - exact T3.
  - intros s d o av s' c out rc Z. apply (T4 s d o). apply zran_const. auto.
  - intros s d o av1 s1 c1 o1 av s' c out rc Z. apply (T5 s d o). apply zran_const. auto.
  - intros s d o av1 s1 c1 o1 av2 s2 c2 o2 Z. apply (T6 s d o). apply zran_const. auto.
  - exact T7.
  - intros d. cbn [toy_const z_sha]. split; [reflexivity|]. apply Forall_forall. intros c H. apply repeat_spec in H. subst c. split; reflexivity.
Qed.
