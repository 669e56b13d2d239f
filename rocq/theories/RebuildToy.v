(* The toy zlib, with a deflate which takes all it is given when there is much room.
   Not a model of any code. *)
From Coq Require Import String.
From Coq Require Import ZifyBool ZifyNat ZifyN.
From Verif Require Import Base BaseLemmas ListLemmas IndexModel HeaderModel InflateSpec InflateProofs
  GzipModel GzipSpec GzipProofs ProgModel StoreModel StoreSpec StoreToy StoreToyOk RebuildModel RebuildSpec.
Open Scope string_scope.
Open Scope list_scope.
Open Scope N_scope.

Definition wide (s : toyz) (i : bytes) (av : N) : bool :=
  negb (len i =? 0) && (len i <=? 65536) && (120000 <=? av) && (len (t_q s) <=? 24).
Definition wide_q (s : toyz) (i : bytes) : bytes := t_q s ++ flat_map sblock (chunks (N.to_nat 60000) i).

Definition toy2_deflate (s : toyz) (i : bytes) (av : N) (fl : zflush) : toyz * N * bytes * zrc :=
  match fl with
  | ZFinish => toy_deflate s i av fl
  | _ => if wide s i av then
           (mkToy [] (t_dat s ++ i) (t_end s), len i,
            wide_q s i ++ match fl with ZSync => [0; 0; 0; 255; 255] | _ => [] end, ZOk)
         else toy_deflate s i av fl
  end.

Definition toy2 : zlib :=
  mkZ toyz (mkToy toy_head [] false) toy2_deflate toy_gzip toy_sha
      (fun c1 c2 n => N.lxor (N.iter n (fun c => crc_byte c 0) c1) c2).

Lemma toy2_nil s av fl : toy2_deflate s [] av fl = toy_deflate s [] av fl.
Proof. destruct fl; reflexivity. Qed.

Lemma chunks_len t : len (flat_map sblock (chunks (N.to_nat 60000) t)) <= len t + 5 * ((len t + 59999) / 60000).
Proof.
  remember (List.length t) as n eqn:En. assert (LE : (List.length t <= n)%nat) by lia. clear En. revert t LE.
  induction n as [|n IH]; intros t LE; (destruct t as [|x t]; [rewrite chunks_nil; vm_compute; discriminate|]); [cbn [List.length] in LE; lia|].
  set (u := x :: t) in *. rewrite chunks_cons by (lia || discriminate). cbn [flat_map]. rewrite len_app, sblock_len.
  assert (LA : len (firstn (N.to_nat 60000) u) = N.min 60000 (len u)) by apply len_first.
  assert (LB : len (skipn (N.to_nat 60000) u) = len u - 60000) by apply len_skip.
  assert (LU : 1 <= len u) by (unfold u, len; cbn [List.length]; lia).
  specialize (IH (skipn (N.to_nat 60000) u)). assert (X : (List.length (skipn (N.to_nat 60000) u) <= n)%nat) by (unfold len in *; lia).
  specialize (IH X). clear - IH LA LB LU. Ltac Zify.zify_post_hook ::= Z.div_mod_to_equations. lia.
Qed.

Lemma wide_len s i av : wide s i av = true -> i <> [] /\ len i <= 65536 /\ 120000 <= av /\ len (t_q s) <= 24 /\ len (wide_q s i) <= 65570.
Proof.
  unfold wide. rewrite !andb_true_iff. intros (((A & B) & D) & E). split; [intros ->; discriminate|].
  unfold wide_q. rewrite len_app. pose proof (chunks_len i) as X. lia.
Qed.

Lemma wide_tinv s d o i av : tinv s d o -> wide s i av = true -> tinv (mkToy [] (t_dat s ++ i) (t_end s)) (d ++ i) (o ++ wide_q s i).
Proof.
  intros (I1 & I2 & I3 & B & I4 & I5) W. unfold tinv. cbn [t_q t_dat t_end]. split; [exact I1|]. split; [congruence|]. split; [vm_compute; discriminate|].
  exists (B ++ flat_map sblock (chunks (N.to_nat 60000) i)). rewrite app_nil_r. unfold wide_q. split; [rewrite !app_assoc, I4, <- !app_assoc; reflexivity|].
  intros HB. apply Forall_app in HB. destruct HB as (HB1 & HB2). destruct (chunks_blocks i HB2 []) as (l & E & H & _).
  rewrite E, rev_app_distr. rewrite app_nil_r in H. apply blocks_apps; auto.
Qed.

Lemma tinv_step2 s d o i av fl s' c out : tinv s d o -> fl = ZNone \/ fl = ZPartial -> toy2_deflate s i av fl = (s', c, out, ZOk) ->
  tinv s' (d ++ firstn (N.to_nat c) i) (o ++ out).
Proof.
  intros I FL E. assert (X : (if wide s i av then (mkToy [] (t_dat s ++ i) (t_end s), len i, wide_q s i ++ [], ZOk)
                              else toy_deflate s i av fl) = (s', c, out, ZOk)) by (destruct FL as [-> | ->]; exact E).
  destruct (wide s i av) eqn:W; [|exact (tinv_step s d o i av fl s' c out I FL X)].
  injection X as <- <- <-. rewrite app_nil_r, firstn_all2 by (unfold len; lia). apply (wide_tinv s d o i av); auto.
Qed.

Lemma zran2_tinv s d o : zran toy2 s d o -> tinv s d o.
Proof.
  intros H. induction H as [|s d o i av fl s' c out H IH FL E]; [apply tinv_init|]. exact (tinv_step2 s d o i av fl s' c out IH FL E).
Qed.

Lemma toy2_ok : zlib_ok toy2.
Proof.
  pose proof toy_ok as T. destruct T as [T1 T2 T3 T4 T5 T6 T7 T8]. constructor.
  - intros s i av fl s' c out rc E. cbn [toy2 z_deflate] in E. unfold toy2_deflate in E.
    destruct fl; try (exact (T1 s i av _ s' c out rc E)); (destruct (wide s i av) eqn:W; [|exact (T1 s i av _ s' c out rc E)]);
      injection E as <- <- <- <-; apply wide_len in W; rewrite len_app; (split; [lia|]); try (change (len [0; 0; 0; 255; 255]) with 5);
      try (change (len []) with 0); lia.
  - intros s i fl s' c out rc E. cbn [toy2 z_deflate] in E. unfold toy2_deflate in E.
    assert (W : wide s i 0 = false) by (unfold wide; rewrite andb_false_r; reflexivity). rewrite W in E.
    destruct fl; exact (T2 s i _ s' c out rc E).
  - intros s av s' c out E. exact (T3 s av s' c out E).
  - intros s d o av s' c out rc Z AV E. apply zran2_tinv in Z. cbn [toy2 z_deflate] in E. rewrite toy2_nil in E. exact (toy_room_sync s d o av s' c out rc Z AV E).
  - intros s d o av1 s1 c1 o1 av s' c out rc Z E1 L1 AV E. apply zran2_tinv in Z. cbn [toy2 z_deflate] in E, E1. rewrite toy2_nil in E, E1.
    exact (toy_room_fin s d o av1 s1 c1 o1 av s' c out rc Z E1 L1 AV E).
  - intros s d o av1 s1 c1 o1 av2 s2 c2 o2 Z B E1 L1 E. apply zran2_tinv in Z. cbn [toy2 z_deflate] in E, E1. rewrite toy2_nil in E, E1.
    exact (toy_stream s d o av1 s1 c1 o1 av2 s2 c2 o2 Z B E1 L1 E).
  - exact T7.
  - exact T8.
Qed.

Lemma fed_tinv s d o : fed toy2 s d o -> tinv s d o.
Proof.
  intros H. induction H as [|s d o i s' c out H IH NI LI E]; [apply tinv_init|].
  exact (tinv_step2 s d o i _ ZNone s' c out IH (or_introl eq_refl) E).
Qed.

Lemma toy_headed m : (exists B, m = toy_head ++ B) -> headed m.
Proof.
  intros (B & ->). exists 2, (le_enc 8 0 ++ B). split; [left; reflexivity|]. unfold toy_head. rewrite <- app_assoc. reflexivity.
Qed.

Lemma toy2_roomy : zlib_roomy toy2.
Proof.
  constructor.
  - intros s d o i F NI LI. apply fed_tinv in F. destruct F as (I1 & I2 & I3 & _).
    assert (W : wide s i 131072 = true).
    { unfold wide. destruct i; [congruence|]. rewrite len_cons in *. lia. }
    cbn [toy2 z_deflate]. unfold toy2_deflate. rewrite W. eexists _, _. split; [reflexivity|].
    apply wide_len in W. rewrite app_nil_r. lia.
  - intros s d o i F LI HB. apply fed_tinv in F.
    assert (X : exists s0 o0, tinv s0 (d ++ i) (o ++ o0) /\ len o0 <= 65570 /\
       z_deflate toy2 s i 131072 ZSync = (mkToy [] (t_dat s0) (t_end s0), len i, o0 ++ t_q s0 ++ [0; 0; 0; 255; 255], ZOk)).
    { destruct i as [|c i].
      - exists s, []. rewrite !app_nil_r. split; [exact F|]. split; [vm_compute; discriminate|]. cbn [toy2 z_deflate]. rewrite toy2_nil, toy_nil_eq. unfold toy_nil.
        change (131072 =? 0) with false. cbv iota zeta. destruct F as (_ & _ & I3 & _). cbn [app].
        rewrite skipn_all2, firstn_all2; [reflexivity| |]; rewrite app_length; unfold len in I3; simpl List.length; lia.
      - set (u := c :: i) in *. assert (W : wide s u 131072 = true).
        { unfold wide. destruct F as (_ & _ & I3 & _). unfold u in *. rewrite len_cons in *. lia. }
        exists (mkToy [] (t_dat s ++ u) (t_end s)), (wide_q s u). split; [apply (wide_tinv s d o u 131072); auto|].
        split; [apply wide_len in W; lia|]. cbn [toy2 z_deflate]. unfold toy2_deflate. rewrite W. reflexivity. }
    destruct X as (s0 & o0 & (I1 & I2 & I3 & B & I4 & I5) & L0 & E1).
    exists (mkToy [] (t_dat s0) (t_end s0)), (o0 ++ t_q s0 ++ [0; 0; 0; 255; 255]). rewrite I1, I2 in *.
    assert (L1 : len (o0 ++ t_q s0 ++ [0; 0; 0; 255; 255]) <= 65600) by (rewrite !len_app; change (len [0; 0; 0; 255; 255]) with 5; lia).
    set (room := 131072 - len (o0 ++ t_q s0 ++ [0; 0; 0; 255; 255])).
    assert (LR : 60000 <= room) by (unfold room; lia). clearbody room.
    exists (mkToy [] (d ++ i) true), 0, (toy_tail (d ++ i)). split; [exact E1|].
    assert (TL : (List.length (toy_tail (d ++ i)) = 10)%nat) by (pose proof (tail_len (d ++ i)) as Q; unfold len in Q; lia).
    split; [|split; [|split]].
    + cbn [toy2 z_deflate]. rewrite toy2_nil, toy_nil_eq. unfold toy_nil. cbn [t_q t_dat t_end app]. replace (room =? 0) with false by lia.
      rewrite skipn_all2, firstn_all2 by lia. reflexivity.
    + rewrite tail_len. lia.
    + apply toy_headed. exists (B ++ [0; 0; 0; 255; 255] ++ toy_tail (d ++ i)).
      rewrite <- !app_assoc. rewrite (app_assoc o o0). rewrite (app_assoc (o ++ o0)), I4. rewrite <- !app_assoc. reflexivity.
    + exists 2, (B ++ [0; 0; 0; 255; 255]), [3; 0]. split; [|split; [|split]].
      * rewrite <- !app_assoc. rewrite (app_assoc o o0). rewrite (app_assoc (o ++ o0)), I4. unfold toy_head, gzip_head, toy_tail. rewrite <- !app_assoc. reflexivity.
      * exists (B ++ [0]). rewrite <- app_assoc. reflexivity.
      * apply blocks_app with (w := rev (d ++ i)); [auto|apply sync_inf].
      * left. reflexivity.
  - intros t _ _. cbn [toy2 z_gzip]. apply toy_headed. unfold toy_gzip. eexists. reflexivity.
Qed.
