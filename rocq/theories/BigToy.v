(* The toy zlib keeps what BigSpec asks for.  Not a model of any code. *)
From Coq Require Import String.
From Coq Require Import ZifyBool ZifyNat ZifyN.
From Verif Require Import Base BaseLemmas ListLemmas IndexModel HeaderModel InflateSpec InflateProofs
  GzipModel GzipSpec GzipProofs ProgModel StoreModel StoreSpec StoreToy StoreToyOk RebuildToy LiveSpec LiveToy BigSpec.
Open Scope string_scope.
Open Scope list_scope.
Open Scope N_scope.
Ltac Zify.zify_post_hook ::= Z.div_mod_to_equations.

Lemma chunks_more t : len t <= len (flat_map sblock (chunks (N.to_nat 60000) t)).
Proof.
  remember (List.length t) as n eqn:En. assert (LE : (List.length t <= n)%nat) by lia. clear En. revert t LE.
  induction n as [|n IH]; intros t LE; (destruct t as [|x t]; [rewrite chunks_nil; vm_compute; discriminate|]); [cbn [List.length] in LE; lia|].
  set (u := x :: t) in *. rewrite chunks_cons by (lia || discriminate). cbn [flat_map]. rewrite len_app, sblock_len.
  assert (X : len u = len (firstn (N.to_nat 60000) u) + len (skipn (N.to_nat 60000) u)) by (rewrite <- len_app, firstn_skipn; auto).
  pose proof (IH (skipn (N.to_nat 60000) u)) as IH'. rewrite skipn_length in IH'. specialize (IH' ltac:(lia)). lia.
Qed.

Definition inv3 (R : N) (s : toyz) (o : bytes) : Prop := t_end s = false /\
  (t_q s = toy_head /\ o = [] \/ t_q s = [] /\ len o + 45 <= R).

Lemma call3 R s o i av fl : 4000 <= R -> inv3 R s o -> fl = ZNone \/ fl = ZPartial ->
  av + 24 = N.min BUFLEN (R - len o) -> 52 <= av -> i <> [] -> 2 * len i <= av ->
  exists s' out, toy3_deflate s i av fl = (s', len i, out, ZOk) /\ inv3 R s' (o ++ out) /\ len o + len out + 45 <= R /\
    (~ In 0 i -> len i <= len out) /\ (len i = zlen -> Forall (eq 0) i -> len out <= 93).
Proof.
  intros HR (I1 & I2) FL EA A1 NI A2. assert (LI : 0 < len i) by (destruct i; [congruence|rewrite len_cons; lia]).
  unfold BUFLEN in *. destruct (all0 s i av) eqn:ZR.
  { eexists _, (t_q s ++ zblock). split; [destruct FL as [-> | ->]; cbn [toy3_deflate]; rewrite ZR; reflexivity|].
    assert (LW : len (t_q s ++ zblock) <= 93) by (rewrite len_app, zblock_len; destruct I2 as [(Q & O)|(Q & O)]; rewrite Q; [change (len toy_head) with 24|rewrite len_nil]; lia).
    unfold all0 in ZR. rewrite !andb_true_iff in ZR. destruct ZR as ((ZR1 & ZR2) & ZR3). unfold zlen in *.
    assert (LW2 : len o + len (t_q s ++ zblock) + 45 <= R) by (destruct I2 as [(Q & O)|(Q & O)]; [rewrite O, len_nil in *|]; lia).
    split; [split; [auto|]; right; cbn [t_q]; rewrite len_app; split; [auto|lia]|]. split; [exact LW2|]. split; [|auto].
    intros X. exfalso. destruct i as [|c i]; [congruence|]. cbn [forallb] in ZR3. rewrite andb_true_iff in ZR3. apply X. left. lia. }
  assert (NZ : len i = zlen -> Forall (eq 0) i -> False).
  { intros X Y. unfold all0 in ZR. rewrite zblock_len in ZR. assert (F0 : forallb (N.eqb 0) i = true) by (apply forallb_forall; rewrite Forall_forall in Y; intros y Hy; specialize (Y y Hy); lia).
    rewrite F0, andb_true_r in ZR. unfold zlen in *. destruct I2 as [(Q & O)|(Q & O)]; rewrite Q in *; [rewrite O in *; change (len toy_head) with 24 in *|]; rewrite ?len_nil in *; lia. }
  unfold toy3_deflate. rewrite ZR.
  assert (X : exists s' out, (if roomy s i av then (mkToy [] (t_dat s ++ i) (t_end s), len i, wide_q s i, ZOk)
         else toy_deflate s i av fl) = (s', len i, out, ZOk) /\ inv3 R s' (o ++ out) /\ len o + len out + 45 <= R /\
    (~ In 0 i -> len i <= len out) /\ (len i = zlen -> Forall (eq 0) i -> len out <= 93)).
  { destruct (roomy s i av) eqn:W.
    - eexists _, _. split; [reflexivity|]. assert (LW : len o + len (wide_q s i) + 45 <= R).
      { unfold wide_q. rewrite len_app. pose proof (chunks_len i) as CL. destruct I2 as [(Q & O)|(Q & O)]; rewrite Q in *; [rewrite O in *; change (len toy_head) with 24|]; rewrite ?len_nil in *; lia. }
      split; [|split; [exact LW|split; [intros _; unfold wide_q; rewrite len_app; pose proof (chunks_more i); lia|intros X Y; destruct (NZ X Y)]]]. unfold inv3. cbn [t_q t_end]. split; [auto|]. right. rewrite len_app. split; [auto|lia].
    - destruct I2 as [(Q & O)|(Q & O)].
      { exfalso. unfold roomy in W. rewrite Q, O in *. change (len toy_head) with 24 in W. rewrite len_nil in *. lia. }
      unfold roomy in W. rewrite Q in W. change (len []) with 0 in W. assert (SM : len i < 100) by lia.
      unfold toy_deflate. replace (av =? 0) with false by lia. rewrite Q. change (len []) with 0. unfold zlen.
      replace (9805 <=? len i) with false by lia. rewrite andb_false_r. cbn [andb]. cbv zeta.
      replace (N.min (len i) (N.min 60000 (av - 0 - 5))) with (len i) by lia. replace (0 <? len i) with true by lia. cbn [app].
      rewrite (firstn_all2 i) by (unfold len; lia).
      assert (LS : len (sblock i) = len i + 5) by (rewrite sblock_len; lia).
      exists (mkToy [] (t_dat s ++ i) (t_end s)), (sblock i).
      split; [destruct FL as [-> | ->]; rewrite (skipn_all2 (sblock i)), (firstn_all2 (sblock i)) by (unfold len in *; lia); reflexivity|].
      split; [|split; [lia|split; [lia|intros X Y; destruct (NZ X Y)]]]. split; [auto|]. right. rewrite len_app. cbn [t_q]. split; [auto|lia]. }
  destruct FL as [-> | ->]; exact X.
Qed.

Lemma steer3 R s d o fl : 4000 <= R -> steered toy3 R s d o fl -> inv3 R s o /\ (fl = ZNone \/ fl = ZPartial).
Proof.
  intros HR S. induction S as [|s d o fl i av s' out S (IH & FL) A1 A2 A3 A4 E]; [split; [split; auto|auto]|].
  assert (FL2 : (if av <? 131072 then ZPartial else fl) = ZNone \/ (if av <? 131072 then ZPartial else fl) = ZPartial) by (destruct (av <? 131072); auto).
  split; [|exact FL2]. destruct (call3 R s o i av _ HR IH FL2 A1 A2 A3 A4) as (s2 & out2 & E2 & I2 & _). cbn [toy3 z_deflate] in E. rewrite E in E2. injection E2 as <- <-. exact I2.
Qed.

(* what is no zeros does not get smaller *)
Lemma steer3_len R s d o fl : 4000 <= R -> steered toy3 R s d o fl -> ~ In 0 d -> len d <= len o.
Proof.
  intros HR S. induction S as [|s d o fl i av s' out S IH A1 A2 A3 A4 E]; intros NI; [rewrite !len_nil; lia|].
  destruct (steer3 _ _ _ _ _ HR S) as (I3 & FL).
  assert (FL2 : (if av <? 131072 then ZPartial else fl) = ZNone \/ (if av <? 131072 then ZPartial else fl) = ZPartial) by (destruct (av <? 131072); auto).
  destruct (call3 R s o i av _ HR I3 FL2 A1 A2 A3 A4) as (s2 & out2 & E2 & I2 & _ & L1 & _). cbn [toy3 z_deflate] in E. rewrite E in E2. injection E2 as <- <-.
  rewrite !len_app. rewrite in_app_iff in NI. assert (len d <= len o) by tauto. assert (len i <= len out) by tauto. lia.
Qed.

Lemma toy3_steer : zlib_steer toy3.
Proof.
  constructor.
  - intros R s d o fl i av HR S A1 A2 A3 A4. destruct (steer3 _ _ _ _ _ HR S) as (IH & FL).
    assert (FL2 : (if av <? 131072 then ZPartial else fl) = ZNone \/ (if av <? 131072 then ZPartial else fl) = ZPartial) by (destruct (av <? 131072); auto).
    destruct (call3 R s o i av _ HR IH FL2 A1 A2 A3 A4) as (s2 & out2 & E2 & I2 & LO & _). exists s2, out2. split; [exact E2|lia].
  - intros R s d o fl av HR S A1. destruct (steer3 _ _ _ _ _ HR S) as ((I1 & I2) & _). cbn [toy3 z_deflate toy3_deflate]. unfold BUFLEN in *.
    assert (QL : len (t_q s) + 5 + 11 <= av).
    { destruct I2 as [(Q & O)|(Q & O)]; rewrite Q in *; [rewrite O in *; change (len toy_head) with 24|]; rewrite ?len_nil in *; lia. }
    rewrite toy_nil_eq. unfold toy_nil. replace (av =? 0) with false by lia. cbv zeta.
    assert (LQ : len (t_q s ++ [0; 0; 0; 255; 255]) = len (t_q s) + 5) by (rewrite len_app; auto).
    rewrite (skipn_all2 (t_q s ++ _)), (firstn_all2 (t_q s ++ _)) by (unfold len in *; lia).
    eexists _, _, _. split; [reflexivity|]. rewrite LQ. split; [lia|]. intros av2 A2. rewrite toy_nil_eq. unfold toy_nil. cbn [t_q t_dat t_end app]. rewrite I1.
    replace (av2 =? 0) with false by lia. cbv zeta. pose proof (tail_len (t_dat s)) as TL.
    rewrite (skipn_all2 (toy_tail _)), (firstn_all2 (toy_tail _)) by (unfold len in *; lia).
    eexists _, _, _. split; [reflexivity|]. lia.
Qed.
