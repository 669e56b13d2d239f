(* Lemmas about ProtoModel.v. *)
From Coq Require Import List NArith ZArith Bool Lia.
From Coq Require Import ZifyBool ZifyNat ZifyN.
From Verif Require Import Base BaseLemmas ListLemmas ProtoModel ProtoSpec.
Ltac Zify.zify_post_hook ::= Z.div_mod_to_equations.
Open Scope list_scope.
Open Scope N_scope.

Lemma read_loop_all : forall fuel cut i n s acc, n <= len s -> (N.to_nat n <= fuel)%nat ->
  read_loop fuel cut i s acc n = Some (acc ++ firstn (N.to_nat n) s, skipn (N.to_nat n) s).
Proof.
  induction fuel as [|f IH]; intros cut i n s acc Hn Hf; cbn [read_loop];
    destruct (N.eqb_spec n 0) as [->|Hz]; try (cbn; rewrite app_nil_r; reflexivity); try lia.
  unfold sys_read. set (k := N.to_nat (N.min n (N.max 1 (cut i)))).
  assert (Hk : (1 <= k <= N.to_nat n)%nat) by lia.
  unfold len in Hn.
  assert (L : length (firstn k s) = k) by (rewrite firstn_length; lia).
  assert (E : firstn k s <> []) by (intros E; rewrite E in L; simpl in L; lia).
  destruct (firstn k s) as [|x b] eqn:F; [congruence|]. rewrite <- F. rewrite <- F in L.
  assert (HL : len (firstn k s) = N.of_nat k) by (unfold len; rewrite L; auto).
  rewrite IH; rewrite ?HL.
  - rewrite skipn_skipn. replace (N.to_nat (n - N.of_nat k) + k)%nat with (N.to_nat n) by lia.
    rewrite <- app_assoc. f_equal. f_equal. f_equal.
    replace (N.to_nat (n - N.of_nat k)) with (N.to_nat n - k)%nat by lia. symmetry. apply firstn_split. lia.
  - unfold len. rewrite skipn_length. lia.
  - lia.
Qed.

Lemma read_loop_short : forall fuel cut i n s acc, len s < n -> read_loop fuel cut i s acc n = None.
Proof.
  induction fuel as [|f IH]; intros cut i n s acc Hn; cbn [read_loop];
    destruct (N.eqb_spec n 0) as [->|Hz]; try lia; auto.
  unfold sys_read. set (k := N.to_nat (N.min n (N.max 1 (cut i)))).
  destruct (firstn k s) as [|x b] eqn:F; auto. rewrite <- F. apply IH.
  unfold len in *. rewrite skipn_length, firstn_length.
  assert ((1 <= k)%nat) by lia. destruct s; [destruct k; discriminate|]. simpl length in *. lia.
Qed.

Lemma payload_app cut p r : read_payload cut (p ++ r) (len p) = Some (p, r).
Proof.
  unfold read_payload. rewrite read_loop_all.
  - unfold len. rewrite Nat2N.id. rewrite firstn_app, firstn_all, Nat.sub_diag, firstn_O, app_nil_r.
    rewrite skipn_app, skipn_all, Nat.sub_diag, skipn_O. auto.
  - unfold len. rewrite app_length. lia.
  - lia.
Qed.

Lemma payload_short cut s n : len s < n -> read_payload cut s n = None.
Proof. intros. apply read_loop_short; auto. Qed.

Lemma cmd_bits cmd k : cmd < 8 -> k < 4 -> N.land (N.lor cmd (k * 64)) 7 = cmd /\ N.shiftr (N.lor cmd (k * 64)) 6 = k.
Proof.
  intros Hc Hk.
  assert (C : cmd = 0 \/ cmd = 1 \/ cmd = 2 \/ cmd = 3 \/ cmd = 4 \/ cmd = 5 \/ cmd = 6 \/ cmd = 7) by lia.
  assert (K : k = 0 \/ k = 1 \/ k = 2 \/ k = 3) by lia.
  repeat match goal with H : _ \/ _ |- _ => destruct H as [->|H] end; subst; auto.
Qed.

(* the head of a frame *)
Definition head_of (cmd l : N) : bytes :=
  if l =? 0 then [cmd]
  else if l =? 32 then [N.lor cmd (1 * 64)]
  else if l <? 256 then [N.lor cmd (2 * 64); l]
  else N.lor cmd (3 * 64) :: be_enc 4 l.

Lemma out_head cmd p : cmd < 8 -> proto_out cmd p = Ok (head_of cmd (len p) ++ p).
Proof.
  intros H. unfold proto_out. replace (cmd <? 8) with true by (symmetry; apply N.ltb_lt; auto). reflexivity.
Qed.

Lemma in_head cmd l r : cmd < 8 -> proto_in (head_of cmd l ++ r) = InFrame cmd (l mod 2 ^ 32) r.
Proof.
  intros Hc. unfold head_of.
  destruct (N.eqb_spec l 0) as [->|H0].
  { cbn [app proto_in]. destruct (cmd_bits cmd 0 Hc ltac:(lia)) as [A B].
    change (0 * 64) with 0 in *. rewrite N.lor_0_r in A, B. rewrite A, B. reflexivity. }
  destruct (N.eqb_spec l 32) as [->|H1].
  { cbn [app proto_in]. destruct (cmd_bits cmd 1 Hc ltac:(lia)) as [A B]. rewrite A, B. reflexivity. }
  destruct (N.ltb_spec l 256) as [H2|H2].
  { cbn [app proto_in]. destruct (cmd_bits cmd 2 Hc ltac:(lia)) as [A B]. rewrite A, B.
    rewrite N.mod_small by lia. reflexivity. }
  destruct (cmd_bits cmd 3 Hc ltac:(lia)) as [A B].
  assert (D := be_dec_enc 4 l). assert (L := be_enc_length 4 l).
  destruct (be_enc 4 l) as [|a [|b [|c [|d [|? ?]]]]]; try discriminate.
  cbn [app proto_in]. rewrite A, B. change (3 =? 0) with false. change (3 =? 1) with false.
  change (3 =? 2) with false. cbn iota. rewrite D. reflexivity.
Qed.

(* a frame head cut short *)
Lemma in_head_cut cmd l k : cmd < 8 -> (0 < k < length (head_of cmd l))%nat ->
  proto_in (firstn k (head_of cmd l)) = InErr.
Proof.
  intros Hc Hk. unfold head_of in *.
  destruct (N.eqb_spec l 0) as [->|H0]; [simpl in Hk; lia|].
  destruct (N.eqb_spec l 32) as [->|H1]; [simpl in Hk; lia|].
  destruct (N.ltb_spec l 256) as [H2|H2].
  { simpl length in Hk. assert (k = 1)%nat by lia. subst. cbn [firstn proto_in].
    destruct (cmd_bits cmd 2 Hc ltac:(lia)) as [A B]. rewrite A, B. reflexivity. }
  destruct (cmd_bits cmd 3 Hc ltac:(lia)) as [A B].
  assert (L := be_enc_length 4 l).
  destruct (be_enc 4 l) as [|a [|b [|c [|d [|? ?]]]]]; try discriminate.
  simpl length in Hk.
  assert (K : (k = 1 \/ k = 2 \/ k = 3 \/ k = 4)%nat) by lia.
  destruct K as [-> | [-> | [-> | ->]]]; cbn [firstn proto_in]; rewrite A, B; reflexivity.
Qed.

Lemma head_len cmd l : (1 <= length (head_of cmd l))%nat.
Proof.
  unfold head_of. destruct (l =? 0); [simpl; lia|]. destruct (l =? 32); [simpl; lia|]. destruct (l <? 256); simpl; lia.
Qed.


Lemma transmit_ok fs : Forall ok_frame fs -> exists s, transmit fs = Ok s.
Proof.
  induction fs as [|[c p] fs IH]; intros H; cbn [transmit]; [eauto|].
  inversion H as [|? ? [Hc Hp] Hr]; subst. destruct (IH Hr) as [s Es].
  cbn [fst snd] in *. rewrite out_head by auto. rewrite Es. cbn. eauto.
Qed.

Lemma transmit_cons c p fs s : c < 8 -> transmit ((c, p) :: fs) = Ok s ->
  exists t, transmit fs = Ok t /\ s = head_of c (len p) ++ p ++ t.
Proof.
  intros Hc H. cbn [transmit] in H. rewrite out_head in H by auto. cbn [bind] in H.
  destruct (transmit fs) as [t| | |]; cbn in H; try discriminate. injection H as <-.
  exists t. rewrite <- app_assoc. auto.
Qed.

Lemma receive_transmit : forall fs s cut fuel, Forall ok_frame fs -> transmit fs = Ok s ->
  (length fs < fuel)%nat -> receive fuel cut s = (fs, EndClean).
Proof.
  induction fs as [|[c p] fs IH]; intros s cut fuel H Hs Hf.
  - injection Hs as <-. destruct fuel; [simpl in Hf; lia|]. reflexivity.
  - inversion H as [|? ? [Hc Hp] Hr]; subst. cbn [fst snd] in *.
    destruct (transmit_cons _ _ _ _ Hc Hs) as (t & Ht & ->).
    destruct fuel; [lia|]. cbn [receive]. rewrite in_head by auto.
    rewrite N.mod_small by auto. rewrite payload_app. rewrite (IH t); auto. simpl in Hf. lia.
Qed.

(* the connection broken after k bytes *)
Lemma receive_cut : forall fs s cut fuel k, Forall ok_frame fs -> transmit fs = Ok s ->
  (length fs < fuel)%nat -> (k <= length s)%nat ->
  exists j e, receive fuel cut (firstn k s) = (firstn j fs, e) /\ e <> EndFuel /\ (j <= length fs)%nat /\
    (e = EndClean <-> exists t, transmit (firstn j fs) = Ok t /\ length t = k) /\
    (exists t, transmit (firstn j fs) = Ok t /\ (length t <= k)%nat /\
      forall j' t', (j < j' <= length fs)%nat -> transmit (firstn j' fs) = Ok t' -> (k < length t')%nat).
Proof.
  induction fs as [|[c p] fs IH]; intros s cut fuel k H Hs Hf Hk.
  - injection Hs as <-. simpl in Hk. assert (k = 0)%nat by lia. subst. destruct fuel; [simpl in Hf; lia|].
    exists 0%nat, EndClean. cbn. split; [auto|]. split; [discriminate|]. split; [auto|]. split.
    + split; auto. intros _. exists []. auto.
    + exists []. split; [auto|]. split; [auto|]. intros. lia.
  - inversion H as [|? ? [Hc Hp] Hr]; subst. cbn [fst snd] in *.
    destruct (transmit_cons _ _ _ _ Hc Hs) as (t & Ht & ->).
    destruct fuel; [simpl in Hf; lia|].
    assert (HL := head_len c (len p)).
    rewrite !app_length in Hk.
    assert (FST : forall j t', (0 < j)%nat -> transmit (firstn j ((c, p) :: fs)) = Ok t' ->
       exists t2, transmit (firstn (pred j) fs) = Ok t2 /\ length t' = (length (head_of c (len p)) + length p + length t2)%nat).
    { intros j t' Hj Et. destruct j; [lia|]. cbn [firstn] in Et.
      destruct (transmit_cons _ _ _ _ Hc Et) as (t2 & Et2 & ->). exists t2. rewrite !app_length. split; auto; lia. }
    destruct (Nat.lt_ge_cases k (length (head_of c (len p)) + length p)) as [Hs1|Hs1].
    + (* inside the first frame *)
      exists 0%nat. cbn [receive firstn].
      assert (X : forall e : ending, e <> EndClean <-> k <> 0%nat ->
        (e = EndClean <-> exists t0 : bytes, transmit [] = Ok t0 /\ length t0 = k)).
      { intros e He. split.
        - intros ->. destruct (Nat.eq_dec k 0) as [->|Hn]; [exists []; auto|]. destruct He as [_ He]. destruct (He Hn); auto.
        - intros (t0 & E0 & L0). injection E0 as <-. simpl in L0. destruct e; auto; destruct He as [He _]; destruct He; congruence. }
      assert (Y : exists t0 : bytes, transmit [] = Ok t0 /\ (length t0 <= k)%nat /\
        forall j' t', (0 < j' <= length ((c, p) :: fs))%nat -> transmit (firstn j' ((c, p) :: fs)) = Ok t' -> (k < length t')%nat).
      { exists []. split; auto. split; [simpl; lia|]. intros j' t' Hj' Et'.
        destruct (FST j' t' ltac:(lia) Et') as (t2 & _ & ->). lia. }
      destruct (Nat.lt_ge_cases k (length (head_of c (len p)))) as [Hs2|Hs2].
      * rewrite firstn_app. replace (k - length (head_of c (len p)))%nat with 0%nat by lia.
        rewrite firstn_O, app_nil_r.
        destruct (Nat.eq_dec k 0) as [->|Hn].
        -- cbn. exists EndClean. split; [reflexivity|]. split; [discriminate|]. split; [lia|]. split; auto.
           apply X. split; congruence.
        -- rewrite in_head_cut by (auto; lia). exists EndBroken. split; [reflexivity|]. split; [discriminate|].
           split; [lia|]. split; auto. apply X. split; congruence.
      * rewrite firstn_app, firstn_all2 by lia. rewrite in_head by auto. rewrite N.mod_small by auto.
        rewrite payload_short.
        -- exists EndBroken. split; [reflexivity|]. split; [discriminate|]. split; [lia|]. split; auto.
           apply X. split; intros; [lia|congruence].
        -- unfold len. rewrite firstn_app, app_length, !firstn_length. unfold len in *. lia.
    + rewrite app_assoc, firstn_app, firstn_all2 by (rewrite app_length; lia).
      cbn [receive]. rewrite <- app_assoc, in_head by auto. rewrite N.mod_small by auto. rewrite payload_app.
      destruct (IH t cut fuel (k - length (head_of c (len p) ++ p))%nat) as (j & e & R & Re & Hj & Hcl & (t0 & Et0 & Lt0 & Mx)); auto.
      { simpl in Hf; lia. } { rewrite app_length. lia. }
      rewrite R. exists (S j), e. cbn [firstn]. split; [reflexivity|]. split; [auto|]. split; [simpl; lia|].
      assert (T1 : transmit ((c, p) :: firstn j fs) = Ok (head_of c (len p) ++ p ++ t0)).
      { cbn [transmit]. rewrite out_head by auto. rewrite Et0. cbn. rewrite <- app_assoc. auto. }
      rewrite app_length in *. split.
      * rewrite Hcl. split.
        -- intros (t1 & E1 & L1). rewrite E1 in Et0. injection Et0 as ->. eexists. split; [exact T1|]. rewrite !app_length. lia.
        -- intros (t1 & E1 & L1). rewrite T1 in E1. injection E1 as <-. exists t0. split; auto. rewrite !app_length in L1. lia.
      * eexists. split; [exact T1|]. split; [rewrite !app_length; lia|].
        intros j' t' Hj' Et'. destruct (FST j' t' ltac:(lia) Et') as (t2 & E2 & ->).
        assert (X := Mx (pred j') t2). simpl in Hj'. specialize (X ltac:(lia) E2). lia.
Qed.

Lemma large_payload cmd p s : cmd < 8 -> 2 ^ 32 <= len p -> proto_out cmd p = Ok s ->
  exists l r, proto_in s = InFrame cmd l r /\ l <> len p /\ l = len p mod 2 ^ 32.
Proof.
  intros Hc Hp Hs. rewrite out_head in Hs by auto. injection Hs as <-. rewrite in_head by auto.
  eexists. eexists. split; [reflexivity|]. split; auto. lia.
Qed.

Lemma out_refused cmd p : 8 <= cmd -> proto_out cmd p = Abort.
Proof. intros H. unfold proto_out. replace (cmd <? 8) with false by (symmetry; apply N.ltb_ge; auto). reflexivity. Qed.

Lemma frames_arrive fs cut fuel : Forall ok_frame fs -> (length fs < fuel)%nat ->
  exists s, transmit fs = Ok s /\ receive fuel cut s = (fs, EndClean).
Proof.
  intros H Hf. destruct (transmit_ok fs H) as [s Hs]. exists s. split; auto. eapply receive_transmit; eauto.
Qed.
