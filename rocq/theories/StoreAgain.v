(* Commands which only look, and commands which store what is there already. *)
From Coq Require Import String Permutation.
From Coq Require Import ZifyBool ZifyNat ZifyN.
From Verif Require Import Base BaseLemmas ListLemmas IndexModel IndexSpec IndexProofs IndexMain HeaderModel HeaderSpec HeaderProofs
  InflateSpec InflateProofs GzipModel GzipSpec GzipProofs ProgModel StoreModel StoreSpec StoreSysModel StoreWp StoreSys StoreHdr
  StoreWrite StoreCommit StoreJob StoreMain StoreGet StoreWorld StoreCalls.
Open Scope string_scope.
Open Scope list_scope.
Open Scope N_scope.

Section Again.
Variable C : conf.
Variable L : zlib.
Hypothesis CO : conf_ok C.
Hypothesis ZO : zlib_ok L.
Notation prefix := (c_prefix C).

(** * Logic with a condition on calls *)

Section Wpc.
Variable P : call -> Prop.
Variable I : fs -> Prop.
Variable D : death -> Prop.
Fixpoint wpc {A} (Q : A -> list N -> fs -> Prop) (own : list N) (s : fs) (p : prog A) : Prop :=
  match p with
  | Ret a => Q a own s
  | Die d => D d
  | Call c k => P c /\ forall s1, rely own s s1 -> I s1 ->
      wpc Q (own_after c (snd (exec c s1)) own) (fst (exec c s1)) (k (snd (exec c s1)))
  end.

Lemma wpc_conseq {A} (Q Q' : A -> list N -> fs -> Prop) p : forall own s,
  (forall a o s', Q a o s' -> Q' a o s') -> wpc Q own s p -> wpc Q' own s p.
Proof. induction p as [a|d|c k IH]; intros own s H W; cbn [wpc] in *; auto. destruct W. split; auto. Qed.
Lemma wpc_seq {A B} (Q : B -> list N -> fs -> Prop) (R : A -> list N -> fs -> Prop) (p : prog A) (f : A -> prog B) : forall own s,
  wpc R own s p -> (forall a o s', R a o s' -> wpc Q o s' (f a)) -> wpc Q own s (bindp p f).
Proof. induction p as [a|d|c k IH]; intros own s W H; cbn [wpc bindp] in *; auto. destruct W. split; auto. Qed.
Lemma wpc_of (J : fs -> Prop) (D0 : death -> Prop) {A} (Q : A -> list N -> fs -> Prop) (p : prog A) : (forall s, I s -> J s) -> (forall d, D0 d -> D d) ->
  allcalls P p -> forall own s, wp J D0 Q own s p -> wpc Q own s p.
Proof.
  intros HJ HD. induction p as [a|d|c k IH]; intros HC own s W; cbn [wpc wp allcalls] in *; auto. destruct HC as (H1 & H2). split; [auto|].
  intros s1 R I1. apply IH; auto. apply W; auto.
Qed.
Lemma wpc_any {A} (p : prog A) : (forall d, D d) -> allcalls P p -> forall own s, wpc (fun _ _ _ => True) own s p.
Proof. intros HD. induction p as [a|d|c k IH]; intros HC own s; cbn [wpc allcalls] in *; auto. destruct HC as (H1 & H2). split; auto. Qed.
Lemma wpc_own {A} (Q : A -> list N -> fs -> Prop) own p : allcalls only_looks p -> forall s, wpc Q [] s p -> wpc (fun a o s' => o = own /\ Q a [] s') own s p.
Proof.
  induction p as [a|d|c k IH]; intros HC s W; cbn [wpc allcalls] in *; auto. destruct HC as (H1 & H2), W as (W1 & W2). split; [auto|].
  intros s1 R I1. assert (E : forall o, own_after c (snd (exec c s1)) o = o) by (intros o; destruct c; cbn in H1; try contradiction; auto).
  specialize (W2 s1 (rely_nil _ _ _ R) I1). rewrite E in *. apply IH; auto.
Qed.
Lemma wpc_stable {A} (Q : A -> list N -> fs -> Prop) own s s' p : (forall a, Q a own s -> Q a own s') -> wpc Q own s p -> rely own s s' -> wpc Q own s' p.
Proof. intros HQ W R. destruct p as [a|d|c k]; cbn [wpc] in *; auto. destruct W as (W1 & W2). split; [auto|]. intros s1 R1 I1. apply W2; auto. eapply rely_trans; eauto. Qed.
End Wpc.

(** * One process among others *)

Notation post := (post C L).
Notation winvo := (winvo C L post).

Lemma others_rely x l y owns i : inv C L (wo_fs x) -> winvo owns x -> lstep C L x l y ->
  (forall e, l = Some e -> ev_proc e <> i) -> rely (nth i owns []) (wo_fs x) (wo_fs y).
Proof.
  intros I W S NE. pose proof W as (HF & ND & H1 & _).
  destruct (Nat.lt_ge_cases i (List.length owns)) as [LI|LI].
  2:{ rewrite nth_overflow by auto. apply (step_grows C L post x y); [|exists l; auto]. split; [auto|]. exists owns. auto. }
  pose proof (nth_In owns [] LI) as HO.
  assert (HN : forall n, In n (nth i owns []) -> f_hold (wo_fs x) n <> None) by (intros n Hn; apply H1; apply in_concat; eauto).
  destruct l as [e|].
  - destruct (winvo_step C L CO ZO _ _ _ _ I W S) as (I' & owns' & W' & l1 & own & l2 & E1 & E2 & LG & _).
    assert (DJ : forall n, In n (nth i owns []) -> f_hold (wo_fs x) n <> None /\ ~ In n own).
    { intros n Hn. split; [auto|]. rewrite E1 in ND, Hn. specialize (NE e eq_refl).
      assert (X : In (nth i (l1 ++ own :: l2) []) l1 \/ In (nth i (l1 ++ own :: l2) []) l2).
      { rewrite E1, app_length in LI. cbn [List.length] in LI. destruct (Nat.lt_ge_cases i (List.length l1)).
        - left. rewrite app_nth1 by auto. apply nth_In. auto.
        - right. rewrite app_nth2 by auto. destruct (i - List.length l1)%nat eqn:Z; [lia|]. cbn [nth]. apply nth_In. lia. }
      eapply others_disjoint; eauto. }
    destruct (lstep_hold C L _ _ _ S) as [(-> & _)|T].
    + apply (exec_rely own); auto.
    + apply (torn_rely own _ _ _ (ev_call e)); auto.
  - clear NE. inversion S; subst; cbn [wo_fs] in *; try apply rely_refl.
    + apply rely_clock.
    + apply rely_sort; auto.
    + eapply rely_protect; eauto.
Qed.

Section Track.
Variable P : call -> Prop.
Variable I : fs -> Prop.
Variable D : death -> Prop.
Hypothesis DK : D DKill.
Variable Q : option bytes -> Prop.
Notation ok := (wpc P (fun s => inv C L s /\ I s) D (fun a _ _ => Q a)).

(* the step of a process: what it becomes *)
Lemma proc_step x l y i j p : lstep C L x l y -> nth_error (wo_procs x) i = Some (j, p) ->
  (nth_error (wo_procs y) i = Some (j, p) /\ (forall e, l = Some e -> ev_proc e <> i)) \/
  (exists c k, p = Call c k /\ l = Some (mkEv i c (created c (snd (exec c (wo_fs x))))) /\ wo_fs y = fst (exec c (wo_fs x)) /\
     nth_error (wo_procs y) i = Some (j, k (snd (exec c (wo_fs x))))) \/
  (nth_error (wo_procs y) i = Some (j, Die DKill) /\ exists c k, p = Call c k /\ forall e, l = Some e -> ev_proc e = i /\ ev_call e = c).
Proof.
  intros S N0.
  assert (MID : forall (ps1 ps2 : list (job * prog (option bytes))) a b, nth_error (ps1 ++ a :: ps2) i = Some (j, p) ->
     (i = List.length ps1 /\ a = (j, p) /\ nth_error (ps1 ++ b :: ps2) i = Some b) \/ (i <> List.length ps1 /\ nth_error (ps1 ++ b :: ps2) i = Some (j, p))).
  { intros ps1 ps2 a b H. destruct (Nat.lt_trichotomy i (List.length ps1)) as [X|[X|X]].
    - right. split; [lia|]. rewrite nth_error_app1 in * by auto. auto.
    - left. subst i. rewrite nth_error_app2, Nat.sub_diag in * by auto. cbn [nth_error] in *. injection H as ->. auto.
    - right. split; [lia|]. rewrite nth_error_app2 in * by lia. destruct (i - List.length ps1)%nat eqn:Y; [lia|]. exact H. }
  destruct S as [s ps1 ps2 j0 c k|s ps1 ps2 j0 c k|s s' ps1 ps2 j0 c k T|s ps j0 J|s ps d Dt|s ps l Pm|s ps n b w FH FS]; cbn [wo_fs wo_procs] in *.
  - destruct (MID _ _ _ (j0, k (snd (exec c s))) N0) as [(-> & E & X)|(X1 & X2)].
    + injection E as -> <-. right. left. exists c, k. auto.
    + left. split; [auto|]. intros e Ee. injection Ee as <-. cbn [ev_proc]. auto.
  - destruct (MID _ _ _ (j0, Die DKill) N0) as [(-> & E & X)|(X1 & X2)].
    + injection E as -> <-. right. right. split; [auto|]. exists c, k. split; [auto|]. discriminate.
    + left. split; [auto|]. discriminate.
  - destruct (MID _ _ _ (j0, Die DKill) N0) as [(-> & E & X)|(X1 & X2)].
    + injection E as -> <-. right. right. split; [auto|]. exists c, k. split; [auto|]. intros e Ee. injection Ee as <-. auto.
    + left. split; [auto|]. intros e Ee. injection Ee as <-. cbn [ev_proc]. auto.
  - left. split; [|discriminate]. rewrite nth_error_app1; auto. apply nth_error_Some. congruence.
  - left. split; [auto|discriminate].
  - left. split; [auto|discriminate].
  - left. split; [auto|discriminate].
Qed.

Lemma track x tr y i j p : reach C L x -> trace C L I x tr y -> nth_error (wo_procs x) i = Some (j, p) ->
  (exists owns, winvo owns x /\ ok (nth i owns []) (wo_fs x) p) ->
  (forall e, In e tr -> ev_proc e = i -> P (ev_call e)) /\
  exists p', nth_error (wo_procs y) i = Some (j, p') /\ exists owns, winvo owns y /\ ok (nth i owns []) (wo_fs y) p'.
Proof.
  intros RX T N0 W0.
  assert (X : reach C L y /\ I (wo_fs y) /\ (forall e, In e tr -> ev_proc e = i -> P (ev_call e)) /\
    exists p', nth_error (wo_procs y) i = Some (j, p') /\ exists owns, winvo owns y /\ ok (nth i owns []) (wo_fs y) p').
  2:{ destruct X as (_ & _ & X). exact X. }
  assert (STEP : forall tr y l z, lstep C L y l z -> reach C L y -> I (wo_fs y) -> (forall e, In e tr -> ev_proc e = i -> P (ev_call e)) ->
     (exists p', nth_error (wo_procs y) i = Some (j, p') /\ exists owns, winvo owns y /\ ok (nth i owns []) (wo_fs y) p') ->
     reach C L z /\ (forall e, l = Some e -> ev_proc e = i -> P (ev_call e)) /\
     exists p', nth_error (wo_procs z) i = Some (j, p') /\ exists owns, winvo owns z /\ ok (nth i owns []) (wo_fs z) p').
  { clear - CO ZO DK. intros tr y l z S RY IY PT (p1 & N1 & owns & W & OKP). split.
    { eapply reach_steps; [exact RY|]. eapply steps_step; [constructor|]. exists l. auto. }
    pose proof (reach_inv C L CO ZO y RY) as IV.
    destruct (winvo_step C L CO ZO _ _ _ _ IV W S) as (_ & owns' & W' & OS).
    destruct (proc_step _ _ _ _ _ _ S N1) as [(N2 & NE)|[(c & k & -> & -> & ES & N2)|(N2 & c & k & -> & NE)]].
    - split; [intros e Ee H; destruct (NE e Ee H)|]. exists p1. split; [auto|]. exists owns'. split; [auto|].
      pose proof (others_rely _ _ _ _ i IV W S NE) as RL.
      assert (EQ : nth i owns' [] = nth i owns [] \/ p1 = Die DKill).
      { destruct l as [e|].
        - left. destruct OS as (l1 & own & l2 & E1 & E2 & _ & own' & E3 & _). specialize (NE e eq_refl).
          rewrite E3, (nth_mid _ _ own'), E1, (nth_mid _ _ own). destruct (Nat.eq_dec i (List.length l1)); [congruence|auto].
        - destruct (OS i) as [E|(_ & j' & K)]; [auto|]. right. congruence. }
      destruct EQ as [-> | ->]; [|exact DK]. eapply wpc_stable; [|exact OKP|exact RL]. auto.
    - split; [intros e Ee _; injection Ee as <-; apply OKP|]. exists (k (snd (exec c (wo_fs y)))). split; [auto|]. exists owns'. split; [auto|].
      destruct OS as (l1 & own & l2 & E1 & E2 & LG & own' & E3 & X). cbn [ev_proc ev_call] in *.
      assert (EO : nth i owns [] = own) by (rewrite E1, <- E2; apply nth_middle). rewrite EO in OKP.
      assert (EO' : nth i owns' [] = own') by (rewrite E3, <- E2; apply nth_middle). rewrite EO'.
      destruct OKP as (_ & OKP). specialize (OKP (wo_fs y) (rely_refl _ _) (conj IV IY)). rewrite ES.
      destruct X as [(-> & _)|(-> & (j' & K) & _)]; [exact OKP|].
      assert (EK : k (snd (exec c (wo_fs y))) = Die DKill) by congruence. rewrite EK. exact DK.
    - split.
      + intros e Ee _. destruct (NE e Ee) as (_ & ->). apply OKP.
      + exists (Die DKill). split; [auto|]. exists owns'. split; [auto|]. exact DK. }
  induction T as [I0|tr y e z T IH S I1|tr y z T IH S I1].
  - split; [auto|]. split; [auto|]. split; [intros e []|]. exists p. split; auto.
  - destruct IH as (RY & IY & PT & EX). destruct (STEP tr y _ z S RY IY PT EX) as (RZ & PE & EX'). split; [auto|]. split; [auto|]. split; [|auto].
    intros e' He Hp. apply in_app_iff in He. destruct He as [He|[<-|[]]]; auto.
  - destruct IH as (RY & IY & PT & EX). destruct (STEP tr y _ z S RY IY PT EX) as (RZ & PE & EX'). auto.
Qed.
End Track.

(* a process which has just been started *)
Lemma fresh s ps j : reach C L (mkWorld s ps) -> job_ok j ->
  reach C L (mkWorld s (ps ++ [(j, job_prog C L j)])) /\
  nth_error (wo_procs (mkWorld s (ps ++ [(j, job_prog C L j)]))) (List.length ps) = Some (j, job_prog C L j) /\
  exists owns, winvo owns (mkWorld s (ps ++ [(j, job_prog C L j)])) /\ nth (List.length ps) owns [] = [].
Proof.
  intros RX J. pose proof (st_start C L s ps j J) as S. split; [|split].
  - eapply reach_steps; [exact RX|]. eapply steps_step; [constructor|]. exists None. auto.
  - cbn [wo_procs]. rewrite nth_error_app2, Nat.sub_diag by auto. auto.
  - destruct (reach_winv C L CO ZO _ RX) as (IV & owns & W). pose proof W as (HF & _).
    destruct (winvo_step C L CO ZO _ _ _ _ IV W S) as (_ & owns' & W' & OS). exists owns'. split; [auto|].
    destruct (OS (List.length ps)) as [->|(-> & _)]; [|auto]. apply nth_overflow. cbn [wo_procs] in HF.
    clear - HF. induction HF; cbn [List.length]; lia.
Qed.

Lemma valid_iff arg nid : IDX_Valid_Id prefix (c_idsize C) arg = IdOk nid <-> good_id prefix (c_idsize C) arg nid.
Proof.
  destruct (co_prefix C CO) as ((_ & _ & p & E) & _). rewrite E. apply valid_id_slash.
Qed.

Lemma lower_len a b : lower a = lower b -> len a = len b.
Proof. intros H. unfold len. rewrite <- (lower_length a), H, lower_length. auto. Qed.

(** * Getting a stored object *)

Section Stored.
Variables (typ id data : bytes) (ps : list part).
Hypothesis TYP : typ = str "resource" \/ typ = str "metadata".
Hypothesis KB : N.of_nat (List.length ps) < 2 ^ 31 - 1.
Hypothesis FU : (List.length ps <= c_fuel C)%nat.
Variables (arg nid : bytes).
Hypothesis GID : good_id prefix (c_idsize C) arg nid.
Hypothesis NID : lower nid = lower id.

Lemma LID : len id = c_idsize C.
Proof. destruct GID as (_ & E & _). rewrite <- E. symmetry. apply lower_len. auto. Qed.

Lemma get_among s ps0 tr y : reach C L (mkWorld s ps0) -> stored_as C L s typ id data ps ->
  trace C L (fun s => clear C L s id ps) (mkWorld s (ps0 ++ [(JGet false arg, main_get C L false arg)])) tr y ->
  (forall e, In e tr -> ev_proc e = List.length ps0 -> only_looks (ev_call e)) /\
  exists p, nth_error (wo_procs y) (List.length ps0) = Some (JGet false arg, p) /\
    (forall a, p = Ret a -> a = Some data) /\ (forall d, p = Die d -> d = DKill).
Proof.
  intros RX ST T. destruct (fresh s ps0 (JGet false arg) RX Logic.I) as (RX' & NE & owns & W & NO).
  destruct (track only_looks (fun s => clear C L s id ps) (fun d => d = DKill) eq_refl (fun a => a = Some data)
    _ _ _ _ _ _ RX' T NE) as (A & p & N1 & owns' & _ & OKP).
  - exists owns. split; [auto|]. rewrite NO.
    apply (wpc_of _ _ _ (fun s => clear C L s id ps) (fun _ => False)); [tauto|contradiction|apply main_get_ro|].
    eapply wp_conseq; [|apply (get_plain C L CO (fun s => clear C L s id ps) nid id NID LID data typ TYP s ps arg)]; auto.
    + cbn beta. tauto.
    + apply valid_iff. auto.
  - split; [exact A|]. exists p. split; [auto|]. split.
    + intros a ->. exact OKP.
    + intros d ->. exact OKP.
Qed.

Lemma get_alone s : stored_as C L s typ id data ps -> clear C L s id ps ->
  run (main_get C L false arg) s = (s, inl (Some data)).
Proof.
  intros ST CL. assert (V : IDX_Valid_Id prefix (c_idsize C) arg = IdOk nid) by (apply valid_iff; auto).
  assert (X := get_plain C L CO (fun s1 => s1 = s) nid id NID LID data typ TYP s ps arg V ST).
  specialize (X ltac:(intros s1 ->; auto) KB FU).
  apply (wp_run _ _ _ (f_hold s)) in X; [|auto|intros n []|auto].
  destruct (run (main_get C L false arg) s) as [s' r]. destruct X as (-> & X). destruct r as [a|d]; [|contradiction].
  destruct X as (own' & (_ & _ & ->) & _). auto.
Qed.

Lemma getz_among s ps0 tr y : reach C L (mkWorld s ps0) -> stored_as C L s typ id data ps ->
  c_max C < 2 ^ 32 -> comb_ok (z_comb L) -> Forall (fun p => len (wr_data (p_rec p)) < 2 ^ 32) (tl ps) ->
  trace C L (fun s => clear C L s id ps) (mkWorld s (ps0 ++ [(JGet true arg, main_get C L true arg)])) tr y ->
  (forall e, In e tr -> ev_proc e = List.length ps0 -> only_looks (ev_call e)) /\
  exists p, nth_error (wo_procs y) (List.length ps0) = Some (JGet true arg, p) /\
    (forall a, p = Ret a -> exists out, a = Some out /\ gunzip out = Some (data, [])) /\ (forall d, p = Die d -> d = DKill).
Proof.
  intros RX ST MX CB TL T. destruct (fresh s ps0 (JGet true arg) RX Logic.I) as (RX' & NE & owns & W & NO).
  destruct (track only_looks (fun s => clear C L s id ps) (fun d => d = DKill) eq_refl (fun a => exists out, a = Some out /\ gunzip out = Some (data, []))
    _ _ _ _ _ _ RX' T NE) as (A & p & N1 & owns' & _ & OKP).
  - exists owns. split; [auto|]. rewrite NO.
    apply (wpc_of _ _ _ (fun s => inv C L s /\ clear C L s id ps) (fun _ => False)); [tauto|contradiction|apply main_get_ro|].
    eapply wp_conseq; [|apply (get_zip C L CO (fun s => inv C L s /\ clear C L s id ps) nid id NID LID data typ TYP s ps arg)]; auto.
    + cbn beta. tauto.
    + apply valid_iff. auto.
    + tauto.
    + intros s1 (((_ & B & _) & _) & _) n b w F. apply B in F. lia.
  - split; [exact A|]. exists p. split; [auto|]. split.
    + intros a ->. exact OKP.
    + intros d ->. exact OKP.
Qed.

Lemma getz_alone s : stored_as C L s typ id data ps -> clear C L s id ps ->
  (forall n b w, f_silo s n = Some (b, w) -> len b < 2 ^ 32) -> comb_ok (z_comb L) ->
  Forall (fun p => len (wr_data (p_rec p)) < 2 ^ 32) (tl ps) ->
  exists out, run (main_get C L true arg) s = (s, inl (Some out)) /\ gunzip out = Some (data, []).
Proof.
  intros ST CL MX CB TL. assert (V : IDX_Valid_Id prefix (c_idsize C) arg = IdOk nid) by (apply valid_iff; auto).
  assert (X := get_zip C L CO (fun s1 => s1 = s) nid id NID LID data typ TYP s ps arg V ST).
  specialize (X ltac:(intros s1 ->; auto) ltac:(intros s1 ->; auto) CB TL KB FU).
  apply (wp_run _ _ _ (f_hold s)) in X; [|auto|intros n []|auto].
  destruct (run (main_get C L true arg) s) as [s' r]. destruct X as (-> & X). destruct r as [a|d]; [|contradiction].
  destruct X as (own' & (_ & _ & out & -> & G) & _). exists out. auto.
Qed.
End Stored.

(** * Storing it again *)

Lemma req_id_fun r a b : req_id C (z_sha L) r a -> req_id C (z_sha L) r b -> a = b.
Proof. unfold req_id. cbv zeta. destruct (r_ident r); [congruence|]. destruct (r_meta r); congruence. Qed.

Lemma wpc_lift {A B} P I (D : death -> Prop) (Q : B -> list N -> fs -> Prop) own s (r : res A) f : (forall d, D d) ->
  (forall a, r = Ok a -> wpc P I D Q own s (f a)) -> wpc P I D Q own s (bindp (lift r) f).
Proof. intros HD H. destruct r; cbn [lift bindp wpc]; auto. Qed.

Section Twice.
Variables (typ id0 data0 : bytes) (ps : list part).
Hypothesis TYP : typ = str "resource" \/ typ = str "metadata".
Hypothesis KB : N.of_nat (List.length ps) < 2 ^ 31 - 1.
Hypothesis FU : (List.length ps <= c_fuel C)%nat.
Variables (r : request) (id : bytes).
Hypothesis RO : request_ok r.
Hypothesis RID : req_id C (z_sha L) r id.
Hypothesis SAME : lower id = lower id0.
Notation I := (fun s => inv C L s /\ clear C L s id0 ps).
Notation wph := (wpc harmless I (fun _ => True)).

Lemma again_wpc s : stored_as C L s typ id0 data0 ps -> wph (fun a _ _ => a = Some (prefix ++ id)) [] s (job_prog C L (JStore r)).
Proof.
  intros ST. cbn [job_prog]. apply (wpc_seq harmless I (fun _ => True) _ (fun x _ _ => x = prefix ++ id)); [|intros a o s' ->; cbn [wpc]; auto].
  unfold main_store.
  eapply wpc_seq; [apply (wpc_of harmless I (fun _ => True) (inv C L) (fun _ => True)); [tauto|auto|apply store_feed_hl; auto|
     apply wp_grow; apply (store_feed_ok C L CO ZO (fun _ => True)); auto]|].
  cbn beta. intros (aa, sj) own s1 ((h0 & dn & BO & CK & (J & FD & NC) & PY & CT & HI & R4) & R1). cbn [fst snd] in *.
  unfold SegJob_Commit.
  eapply wpc_seq; [apply (wpc_of harmless I (fun _ => True) (inv C L) (fun _ => True)); [tauto|auto|apply ident_hl; auto|
     apply wp_grow; apply (segjob_ident_ok C L CO ZO (fun _ => True) Logic.I Logic.I Logic.I h0 (req_type r) (r_ident r) BO s1 own aa sj dn J CK)]|]; auto.
  { rewrite PY. apply (ro_size r RO). }
  cbn beta. intros (((aa1, sj1), sg'), rest) own1 s2 ((sg & h & d & rd & CK1 & J1 & CN & P & ED & -> & G1 & G2 & G3 & _) & R2).
  cbv zeta. unfold Header_Get_Id. cbn [sg_hdr sg_silo].
  assert (EI : h_id h = id).
  { apply (req_id_fun r); [|auto]. apply (fed_id C L r h0); auto; [intros Hm; apply R4; auto|]. rewrite <- PY, <- P. exact G3. }
  rewrite EI. apply wpc_lift; [auto|]. intros a EA. apply d2i in EA. destruct EA as (-> & HX & LX).
  assert (V : IDX_Valid_Id prefix (c_idsize C) id = IdOk id).
  { apply valid_iff. split; [exact HX|]. split; auto. }
  assert (ST2 : stored_as C L s2 typ id0 data0 ps).
  { eapply stored_rely; [|exact R2]. eapply stored_rely; eauto. }
  assert (WK : wph (fun a o s' => o = own1 /\ exists gs, a = Some gs) own1 s2 (GetJob_New C id)).
  { apply (wpc_conseq _ _ _ (fun a o s' => o = own1 /\ (([] : list N) = [] /\ rely [] s2 s' /\ exists gs, a = Some gs /\ gottens s' 1 ps gs))).
    { intros a o s' (E & _ & _ & gs & X & _). eauto. }
    apply (wpc_own _ _ _ (fun a (o : list N) s' => o = [] /\ rely [] s2 s' /\ exists gs, a = Some gs /\ gottens s' 1 ps gs) own1); [apply getjob_ro|].
    apply (wpc_of harmless I (fun _ => True) I (fun _ => False)); [tauto|auto|apply getjob_hl|]. unfold GetJob_New. rewrite V.
    apply (walk C L CO I id id0 SAME ltac:(rewrite <- LX; symmetry; apply lower_len; auto) data0 typ TYP); auto. tauto. }
  eapply wpc_seq; [exact WK|]. cbn beta. intros gj o s3 (-> & gs & ->).
  eapply wpc_seq; [apply wpc_any; [auto|apply destroy_hl]|]. intros u o s4 _. cbn [wpc]. auto.
Qed.

(* among other commands *)
Lemma again_among s ps0 tr y : reach C L (mkWorld s ps0) -> stored_as C L s typ id0 data0 ps ->
  trace C L (fun s => clear C L s id0 ps) (mkWorld s (ps0 ++ [(JStore r, job_prog C L (JStore r))])) tr y ->
  (forall e, In e tr -> ev_proc e = List.length ps0 -> harmless (ev_call e)) /\
  exists p, nth_error (wo_procs y) (List.length ps0) = Some (JStore r, p) /\ (forall a, p = Ret a -> a = Some (prefix ++ id)).
Proof.
  intros RX ST T. destruct (fresh s ps0 (JStore r) RX RO) as (RX' & NE & owns & W & NO).
  destruct (track harmless (fun s => clear C L s id0 ps) (fun d => True) Logic.I (fun a => a = Some (prefix ++ id))
    _ _ _ _ _ _ RX' T NE) as (A & p & N1 & owns' & _ & OKP).
  - exists owns. split; [auto|]. rewrite NO. apply again_wpc. auto.
  - split; [exact A|]. exists p. split; [auto|]. intros a ->. exact OKP.
Qed.

(* alone *)
Lemma run_still {A} (Q Q' : A -> list N -> fs -> Prop) (p : prog A) : forall own s, wp (inv C L) (fun _ => True) Q own s p -> wph Q' own s p ->
  inv C L s -> clear C L s id0 ps ->
  let (s', x) := run p s in f_silo s' = f_silo s /\ f_idx s' = f_idx s /\ match x with inl a => exists o, Q' a o s' | inr _ => True end.
Proof.
  induction p as [a|d|c k IH]; intros own s W1 W2 IV CL; cbn [run wp wpc] in *.
  - eauto.
  - auto.
  - destruct (W1 s (rely_refl _ _) IV) as (_ & _ & IV' & W1'). destruct W2 as (HC & W2). specialize (W2 s (rely_refl _ _) (conj IV CL)).
    assert (E : f_silo (fst (exec c s)) = f_silo s /\ f_idx (fst (exec c s)) = f_idx s).
    { clear - HC. destruct c; cbn [harmless exec fst] in *; try contradiction; auto. destruct (f_hold s n); auto. }
    destruct E as (E1 & E2). assert (CL' : clear C L (fst (exec c s)) id0 ps).
    { clear - CL E1 E2. assert (IA : forall n o w e, in_archive C L s n o w e -> in_archive C L (fst (exec c s)) n o w e).
      { intros n o w e. unfold in_archive. rewrite E1, E2. auto. }
      destruct ps as [|p r0]; [auto|]. cbn [clear] in *. destruct CL as (CF & CR). split.
      - intros e He Ha. rewrite E2 in He. destruct (CF e He Ha) as (n & o & w & X1 & X2). exists n, o, w. auto.
      - revert p CR CF. induction r0 as [|q r0 IH]; intros p CR CF; cbn [clear_rest] in *; [auto|]. destruct CR as (CN & CR). split.
        + intros e He Ha. rewrite E2 in He. destruct (CN e He Ha) as (n & o & w & oid & X1 & X2). exists n, o, w, oid. auto.
        + clear - IH CR IA E2. revert q CR. clear IH. induction r0 as [|q' r0 IH]; intros q CR; cbn [clear_rest] in *; [auto|]. destruct CR as (CN & CR). split; [|auto].
          intros e He Ha. rewrite E2 in He. destruct (CN e He Ha) as (n & o & w & oid & X1 & X2). exists n, o, w, oid. auto. }
    destruct (exec c s) as [s2 a]. cbn [fst snd] in *. specialize (IH a _ _ W1' W2 IV' CL'). destruct (run (k a) s2) as [s' x].
    rewrite <- E1, <- E2. exact IH.
Qed.

Lemma again_alone s : archive_ok C L s -> date_ok (f_clock s) -> stored_as C L s typ id0 data0 ps -> clear C L s id0 ps ->
  let (s', x) := run (main_store C L r) s in
  f_silo s' = f_silo s /\ f_idx s' = f_idx s /\
  match x with inl a => a = prefix ++ id /\ (forall n, f_hold s' n = f_hold s n) | inr _ => True end.
Proof.
  intros A0 DT ST CL.
  assert (W1 := main_store_ok C L CO ZO (fun _ => True) Logic.I Logic.I Logic.I Logic.I s r RO).
  assert (W2 := again_wpc s ST). cbn [job_prog] in W2.
  assert (W3 : wph (fun x _ _ => x = prefix ++ id) [] s (main_store C L r)).
  { revert W2. generalize (main_store C L r) as p. generalize (@nil N) as o. clear. intros o p. revert o s. induction p as [a|d|c k IH]; intros o s W; cbn [wpc bindp] in *; auto.
    - congruence.
    - destruct W. split; auto. }
  pose proof (run_still _ _ _ _ _ W1 W3 (conj A0 DT) CL) as X.
  apply (wp_run _ _ _ (f_hold s)) in W1; [|split; auto|intros n []|auto].
  destruct (run (main_store C L r) s) as [s' x]. destruct X as (X1 & X2 & X3), W1 as (_ & W1). split; [auto|]. split; [auto|].
  destruct x as [a|]; [|auto]. destruct X3 as (_ & X3), W1 as (o & (-> & _) & _ & Y). split; auto.
Qed.
End Twice.
End Again.
