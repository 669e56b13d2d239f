(* The toy zlib, with a deflate which takes all it is given when there is room, and
   makes little of zeros.
   Not a model of any code. *)
From Coq Require Import String.
From Coq Require Import ZifyBool ZifyNat ZifyN.
From Verif Require Import Base BaseLemmas ListLemmas IndexModel HeaderModel InflateSpec InflateProofs
  GzipModel GzipSpec GzipProofs ProgModel StoreModel StoreSpec StoreToy StoreToyOk RebuildToy LiveSpec.
Open Scope string_scope.
Open Scope list_scope.
Open Scope N_scope.

Definition roomy (s : toyz) (i : bytes) (av : N) : bool :=
  negb (len i =? 0) && (len i + 5 * (len i / 60000 + 1) + 24 <=? av) && (len (t_q s) <=? 24).

Definition all0 (s : toyz) (i : bytes) (av : N) : bool :=
  (len (t_q s) + len zblock <=? av) && (len i =? zlen) && forallb (N.eqb 0) i.

Definition toy3_deflate (s : toyz) (i : bytes) (av : N) (fl : zflush) : toyz * N * bytes * zrc :=
  match fl with
  | ZFinish | ZSync => toy_deflate s i av fl
  | _ => if all0 s i av then (mkToy [] (t_dat s ++ i) (t_end s), len i, t_q s ++ zblock, ZOk) else
         if roomy s i av then (mkToy [] (t_dat s ++ i) (t_end s), len i, wide_q s i, ZOk)
         else toy_deflate s i av fl
  end.

Definition toy3 : zlib :=
  mkZ toyz (mkToy toy_head [] false) toy3_deflate toy_gzip toy_sha
      (fun c1 c2 n => N.lxor (N.iter n (fun c => crc_byte c 0) c1) c2).

Ltac Zify.zify_post_hook ::= Z.div_mod_to_equations.

Lemma roomy_len s i av : roomy s i av = true -> i <> [] /\ len (wide_q s i) <= av /\ len (wide_q s i) <= len (t_q s) + 6 * len i.
Proof.
  unfold roomy. rewrite !andb_true_iff. intros ((A & B) & D). split; [intros ->; discriminate|].
  unfold wide_q. rewrite len_app. pose proof (chunks_len i) as X. lia.
Qed.

Lemma all0_eq s i av fl : all0 s i av = true -> fl = ZNone \/ fl = ZPartial ->
  toy_deflate s i av fl = (mkToy [] (t_dat s ++ i) (t_end s), len i, t_q s ++ zblock, ZOk).
Proof.
  unfold all0. rewrite !andb_true_iff. intros ((A & B) & Z) FL. unfold toy_deflate. rewrite A, zblock_len in *. replace (av =? 0) with false by lia.
  replace (zlen <=? len i) with true by lia. assert (FI : firstn (N.to_nat zlen) i = i) by (apply firstn_all2; unfold len in *; lia). rewrite FI, Z. cbn [andb]. cbv zeta.
  rewrite FI. assert (LQ : len (t_q s ++ zblock) <= av) by (rewrite len_app, zblock_len; lia).
  replace zlen with (len i) by lia.
  destruct FL as [-> | ->]; rewrite skipn_all2, firstn_all2 by (unfold len in LQ; lia); reflexivity.
Qed.

Definition tlen (s : toyz) (d o : bytes) : Prop := len o + len (t_q s) <= 24 + 6 * len d.

Lemma roomy_tinv s d o i av : tinv s d o -> roomy s i av = true -> tinv (mkToy [] (t_dat s ++ i) (t_end s)) (d ++ i) (o ++ wide_q s i).
Proof.
  intros (I1 & I2 & I3 & B & I4 & I5) W. unfold tinv. cbn [t_q t_dat t_end]. split; [exact I1|]. split; [congruence|]. split; [vm_compute; discriminate|].
  exists (B ++ flat_map sblock (chunks (N.to_nat 60000) i)). rewrite app_nil_r. unfold wide_q. split; [rewrite !app_assoc, I4, <- !app_assoc; reflexivity|].
  intros HB. apply Forall_app in HB. destruct HB as (HB1 & HB2). destruct (chunks_blocks i HB2 []) as (l & E & H & _).
  rewrite E, rev_app_distr. rewrite app_nil_r in H. apply blocks_apps; auto.
Qed.

Lemma toy_tlen s d o i av fl s' c out : tlen s d o -> fl = ZNone \/ fl = ZPartial -> toy_deflate s i av fl = (s', c, out, ZOk) ->
  tlen s' (d ++ firstn (N.to_nat c) i) (o ++ out).
Proof.
  unfold tlen. intros T FL. unfold toy_deflate. destruct (av =? 0) eqn:A0; [discriminate|]. cbv zeta.
  destruct (_ && _ && _) eqn:Z.
  - rewrite !andb_true_iff in Z. destruct Z as ((Z1 & Z2) & _).
    assert (X : forall q : bytes, len (firstn (N.to_nat av) q) + len (skipn (N.to_nat av) q) = len q) by (intros q; rewrite <- len_app, firstn_skipn; auto).
    specialize (X (t_q s ++ zblock)). rewrite len_app, zblock_len in X.
    destruct FL as [-> | ->]; intros E; injection E as <- <- <-; cbn [t_q]; rewrite !len_app, (len_first i); unfold zlen in *; lia.
  - set (cc := N.min (len i) _). assert (X : forall q : bytes, len (firstn (N.to_nat av) q) + len (skipn (N.to_nat av) q) = len q) by (intros q; rewrite <- len_app, firstn_skipn; auto).
    specialize (X (t_q s ++ (if 0 <? cc then sblock (firstn (N.to_nat cc) i) else []))). rewrite len_app in X.
    assert (Y : len (if 0 <? cc then sblock (firstn (N.to_nat cc) i) else []) <= 6 * len (firstn (N.to_nat cc) i)).
    { destruct (0 <? cc) eqn:C0; [|rewrite len_nil; lia]. rewrite sblock_len, len_first. unfold cc in *. lia. }
    destruct FL as [-> | ->]; intros E; injection E as <- <- <-; cbn [t_q]; rewrite !len_app; lia.
Qed.

Lemma toy3_step s d o i av fl s' c out : tinv s d o /\ tlen s d o -> fl = ZNone \/ fl = ZPartial -> toy3_deflate s i av fl = (s', c, out, ZOk) ->
  tinv s' (d ++ firstn (N.to_nat c) i) (o ++ out) /\ tlen s' (d ++ firstn (N.to_nat c) i) (o ++ out).
Proof.
  intros (I & T) FL E. destruct (all0 s i av) eqn:ZR.
  { assert (X : toy_deflate s i av fl = (s', c, out, ZOk)) by (rewrite (all0_eq _ _ _ _ ZR FL); destruct FL as [-> | ->]; cbn [toy3_deflate] in E; rewrite ZR in E; exact E).
    split; [exact (tinv_step s d o i av fl s' c out I FL X)|exact (toy_tlen s d o i av fl s' c out T FL X)]. }
  assert (X : (if roomy s i av then (mkToy [] (t_dat s ++ i) (t_end s), len i, wide_q s i, ZOk)
                              else toy_deflate s i av fl) = (s', c, out, ZOk)) by (destruct FL as [-> | ->]; cbn [toy3_deflate] in E; rewrite ZR in E; exact E).
  destruct (roomy s i av) eqn:W.
  - injection X as <- <- <-. rewrite firstn_all2 by (unfold len; lia). split; [apply (roomy_tinv s d o i av); auto|].
    apply roomy_len in W. unfold tlen in *. cbn [t_q]. rewrite !len_app, len_nil. lia.
  - split; [exact (tinv_step s d o i av fl s' c out I FL X)|exact (toy_tlen s d o i av fl s' c out T FL X)].
Qed.

Lemma zran3 s d o : zran toy3 s d o -> tinv s d o /\ tlen s d o.
Proof.
  intros H. induction H as [|s d o i av fl s' c out H IH FL E]; [split; [apply tinv_init|vm_compute; discriminate]|].
  exact (toy3_step s d o i av fl s' c out IH FL E).
Qed.

Lemma toy3_nil s av fl : toy3_deflate s [] av fl = toy_deflate s [] av fl.
Proof. destruct fl; try reflexivity; unfold toy3_deflate, all0; change (len [] =? zlen) with false; rewrite andb_false_r; reflexivity. Qed.

Lemma toy3_ok : zlib_ok toy3.
Proof.
  pose proof toy_ok as T. destruct T as [T1 T2 T3 T4 T5 T6 T7 T8]. constructor.
  - intros s i av fl s' c out rc E. cbn [toy3 z_deflate] in E. unfold toy3_deflate in E.
    destruct fl; try (exact (T1 s i av _ s' c out rc E));
      (destruct (all0 s i av) eqn:ZR; [rewrite <- (all0_eq s i av ZNone ZR) in E by auto; exact (T1 s i av _ s' c out rc E)|]);
      (destruct (roomy s i av) eqn:W; [|exact (T1 s i av _ s' c out rc E)]);
      injection E as <- <- <- <-; apply roomy_len in W; lia.
  - intros s i fl s' c out rc E. cbn [toy3 z_deflate] in E. unfold toy3_deflate in E.
    assert (W : roomy s i 0 = false) by (unfold roomy; lia). assert (ZR : all0 s i 0 = false) by (unfold all0; rewrite zblock_len; lia). rewrite W, ZR in E.
    destruct fl; exact (T2 s i _ s' c out rc E).
  - intros s av s' c out E. exact (T3 s av s' c out E).
  - intros s d o av s' c out rc Z AV E. apply zran3 in Z. exact (toy_room_sync s d o av s' c out rc (proj1 Z) AV E).
  - intros s d o av1 s1 c1 o1 av s' c out rc Z E1 L1 AV E. apply zran3 in Z. exact (toy_room_fin s d o av1 s1 c1 o1 av s' c out rc (proj1 Z) E1 L1 AV E).
  - intros s d o av1 s1 c1 o1 av2 s2 c2 o2 Z B E1 L1 E. apply zran3 in Z. exact (toy_stream s d o av1 s1 c1 o1 av2 s2 c2 o2 (proj1 Z) B E1 L1 E).
  - exact T7.
  - exact T8.
Qed.

(* flushing, all of it *)
Lemma sync3 s av s1 c1 o1 : toy_deflate s [] av ZSync = (s1, c1, o1, ZOk) -> len o1 < av ->
  s1 = mkToy [] (t_dat s) (t_end s) /\ o1 = t_q s ++ [0; 0; 0; 255; 255].
Proof.
  rewrite toy_nil_eq. unfold toy_nil. destruct (av =? 0) eqn:A; [discriminate|]. cbv zeta. intros E LO. injection E as <- _ <-.
  rewrite len_first in LO. rewrite skipn_all2, firstn_all2 by (unfold len in LO; lia). auto.
Qed.

Lemma head3 r : exists xfl r', (xfl = 2 \/ xfl = 4) /\ toy_head ++ r = [31; 139; 8; 4; 0; 0; 0; 0; xfl; 3; 12; 0; 65; 97; 8; 0] ++ r'.
Proof. exists 2, (le_enc 8 0 ++ r). split; [auto|]. unfold toy_head. rewrite <- app_assoc. reflexivity. Qed.

Lemma toy3_live : zlib_live toy3.
Proof.
  constructor.
  - intros s d o i av fl Z FL NI RM. apply zran3 in Z. destruct Z as ((_ & _ & I3 & _) & T).
    assert (W : roomy s i av = true).
    { unfold roomy, tlen, zmax in *. assert (0 < len i) by (destruct i; [congruence|rewrite len_cons; lia]). lia. }
    cbn [toy3 z_deflate]. unfold toy3_deflate. rewrite W. destruct FL as [-> | ->]; destruct (all0 s i av); eauto.
  - intros s d o Z. apply zran3 in Z. destruct Z as (_ & T). unfold tlen, zmax in *. lia.
  - intros s d o av Z AV. apply zran3 in Z. destruct Z as (_ & T). cbn [toy3 z_deflate toy3_deflate]. rewrite toy_nil_eq. unfold toy_nil.
    replace (av =? 0) with false by lia. cbv zeta. eexists _, _, _. split; [reflexivity|].
    rewrite len_first, len_app. change (len [0; 0; 0; 255; 255]) with 5. unfold tlen, zmax in *. lia.
  - intros s d o av1 s1 c1 o1 av Z E1 L1 AV. apply zran3 in Z. destruct Z as ((I1 & _) & T). cbn [toy3 z_deflate toy3_deflate] in *.
    apply sync3 in E1; [|auto]. destruct E1 as (-> & ->). rewrite toy_nil_eq. unfold toy_nil. replace (av =? 0) with false by lia.
    cbn [t_q t_dat t_end app]. rewrite I1. cbv zeta. eexists _, _, _, _. split; [reflexivity|]. split; [destruct (skipn _ _); discriminate|].
    rewrite len_app, len_first, tail_len. change (len [0; 0; 0; 255; 255]) with 5. unfold tlen, zmax in *. lia.
  - intros l t _ _. cbn [toy3 z_gzip]. unfold toy_gzip. apply head3.
  - intros s d o av1 s1 c1 o1 av2 s2 c2 o2 Z E1 L1 E2. apply zran3 in Z. destruct Z as ((_ & _ & _ & B & IB & _) & _). cbn [toy3 z_deflate toy3_deflate] in *.
    apply sync3 in E1; [|auto]. destruct E1 as (-> & ->). rewrite !app_assoc, IB, <- !app_assoc. apply head3.
  - exists 39. intros t HB LT. cbn [toy3 z_gzip]. unfold toy_gzip. destruct t as [|c t]; [destruct LT as (LT & _); discriminate LT|]. set (u := c :: t) in *.
    rewrite chunks_cons by (lia || discriminate). rewrite skipn_all2, firstn_all2 by (unfold len in LT; lia). rewrite chunks_nil. cbn [flat_map].
    rewrite app_nil_r, !len_app, sblock_len, tail_len. change (len toy_head) with 24. lia.
Qed.
