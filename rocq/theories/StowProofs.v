(* Proofs about stow and stevedore. *)
From Coq Require Import ZifyBool ZifyNat ZifyN.
From Verif Require Import Base BaseLemmas ListLemmas StowModel StowSpec.
Open Scope list_scope.
Open Scope N_scope.

(* ---- lists ---- *)
Lemma missing_app a b : missing (a ++ b) = missing a ++ missing b.
Proof. unfold missing. rewrite filter_app, map_app. auto. Qed.

Lemma offered_app a b : offered (a ++ b) = offered a ++ offered b.
Proof. induction a as [|[d|d|d] a IH]; cbn; auto. rewrite IH. auto. Qed.
Lemma datas_app a b : datas (a ++ b) = datas a ++ datas b.
Proof. induction a as [|[d|d|d] a IH]; cbn; auto. rewrite IH. auto. Qed.
Lemma metas_app a b : metas (a ++ b) = metas a ++ metas b.
Proof. induction a as [|[d|d|d] a IH]; cbn; auto. rewrite IH. auto. Qed.
Lemma reported_app a b : reported (a ++ b) = reported a ++ reported b.
Proof. induction a as [|[|d|d|d] a IH]; cbn; auto. destruct (16 <=? len d); cbn; rewrite IH; auto. Qed.

Fixpoint pays (h : list smsg) : list bytes :=
  match h with [] => [] | RFilter p :: r => p :: pays r | _ :: r => pays r end.
Fixpoint rdatas (h : list smsg) : list bytes :=
  match h with [] => [] | RData p :: r => p :: rdatas r | _ :: r => rdatas r end.
Fixpoint rmetas (h : list smsg) : list bytes :=
  match h with [] => [] | RMeta p :: r => p :: rmetas r | _ :: r => rmetas r end.
Lemma pays_app a b : pays (a ++ b) = pays a ++ pays b.
Proof. induction a as [|[|d|d|d] a IH]; cbn; auto. rewrite IH. auto. Qed.
Lemma rdatas_app a b : rdatas (a ++ b) = rdatas a ++ rdatas b.
Proof. induction a as [|[|d|d|d] a IH]; cbn; auto. rewrite IH. auto. Qed.
Lemma rmetas_app a b : rmetas (a ++ b) = rmetas a ++ rmetas b.
Proof. induction a as [|[|d|d|d] a IH]; cbn; auto. rewrite IH. auto. Qed.

Lemma no_frames l : offered l = [] -> datas l = [] -> metas l = [] -> l = [].
Proof. destruct l as [|[d|d|d] l]; cbn; auto; discriminate. Qed.

Lemma no_replies l : pays l = [] -> rdatas l = [] -> rmetas l = [] -> forall m, In m l -> m = RMsg.
Proof.
  induction l as [|[|d|d|d] l IH]; cbn; try discriminate; intros A B C m M; [contradiction|].
  destruct M as [<-|M]; auto.
Qed.

Lemma cut_len n d : n <= len d -> len (cut n d) = n.
Proof. unfold cut, len. intros H. rewrite firstn_length. lia. Qed.
Lemma cut_cut n m d : n <= m -> cut n (cut m d) = cut n d.
Proof. unfold cut. intros H. rewrite firstn_firstn. f_equal. lia. Qed.
Lemma cut_all n d : len d <= n -> cut n d = d.
Proof. unfold cut, len. intros H. apply firstn_all2. lia. Qed.

Section Proofs.
Variable idsize : N.
Notation key := (key idsize).

(* ---- replies, and those they are about ---- *)
Definition there (e : subj * bool) : Prop := snd e = true /\ j_dig (fst e) <> [].
Inductive covers : list bytes -> answers -> Prop :=
| cov_nil K : Forall there K -> covers [] K
| cov_id x P L K : Forall there L -> (forall e, In e L -> key (fst e) <> key x) -> len (j_dig x) = 64 -> covers P K ->
    covers (key x :: P) (L ++ (x, false) :: K)
| cov_count q P L K : q = be_enc 4 (len L) -> 1 <= len L < 2 ^ 32 -> Forall there L -> covers P K -> covers (q :: P) (L ++ K)
| cov_flush L : Forall there L -> covers [[]] (L ++ [(theend, true)]).

Lemma there_missing L : Forall there L -> missing L = [].
Proof.
  unfold missing. induction 1 as [|[x b] L [H1 H2] H IH]; auto. cbn in H1 |- *. subst. cbn. auto.
Qed.

Lemma in_missing x a : In x (missing a) <-> In (x, false) a.
Proof.
  unfold missing. rewrite in_map_iff. split.
  - intros ([y b] & <- & H). apply filter_In in H. destruct H as [H1 H2]. cbn in *. destruct b; [discriminate|auto].
  - intros H. exists (x, false). split; auto. apply filter_In. auto.
Qed.

Lemma theend_in L : Forall there L -> ~ In theend (map fst L).
Proof.
  intros H I. apply in_map_iff in I. destruct I as (e & E & I). rewrite Forall_forall in H. destruct (H _ I) as [_ F].
  rewrite E in F. auto.
Qed.

(* A batch of answers joins *)
Lemma covers_ids B : forall L, Forall there L ->
  (forall x, In x (map fst B) -> len (j_dig x) = 64) ->
  (forall e x, In e L -> In (x, false) B -> key (fst e) <> key x) ->
  (forall e x, In (e, true) B -> In (x, false) B -> key e <> key x) ->
  covers (map key (missing B)) (L ++ B).
Proof.
  induction B as [|[x b] B IH]; intros L HL D C1 C2.
  - cbn. rewrite app_nil_r. constructor. auto.
  - assert (DX : len (j_dig x) = 64) by (apply D; cbn; auto).
    destruct b.
    + cbn [missing filter snd negb map fst]. replace (L ++ (x, true) :: B) with ((L ++ [(x, true)]) ++ B) by (rewrite <- app_assoc; auto).
      apply IH.
      * apply Forall_app. split; auto. constructor; auto. split; cbn; auto. intros E. rewrite E in DX. cbn in DX. lia.
      * intros y Y. apply D. cbn. auto.
      * intros e y E Y. apply in_app_iff in E. destruct E as [E|[<-|[]]]; [apply C1; cbn; auto|]. cbn. apply C2; cbn; auto.
      * intros e y E Y. apply C2; cbn; auto.
    + cbn. constructor; auto.
      * intros e E. apply C1; cbn; auto.
      * apply (IH []).
        -- constructor.
        -- intros y Y. apply D. cbn. auto.
        -- intros e y [].
        -- intros e y E Y. apply C2; cbn; auto.
Qed.

Lemma covers_add P K B : covers P K -> ~ In theend (map fst K) ->
  (forall x, In x (map fst B) -> len (j_dig x) = 64) ->
  (forall e x, In e K -> snd e = true -> In (x, false) B -> key (fst e) <> key x) ->
  (forall e x, In (e, true) B -> In (x, false) B -> key e <> key x) ->
  covers (P ++ map key (missing B)) (K ++ B).
Proof.
  intros H. induction H as [K HK|x P L K HL HN DX HC IH|q P L K HQ HL HT HC IH|L HL]; intros N D C1 C2.
  - cbn. apply covers_ids; auto. rewrite Forall_forall in HK. intros e x E X. apply C1; auto. apply HK; auto.
  - rewrite <- app_assoc. cbn. constructor; auto. apply IH; auto.
    + intros I. apply N. rewrite map_app, in_app_iff. cbn. auto.
    + intros e y E. apply C1. rewrite in_app_iff. cbn. auto.
  - rewrite <- app_assoc. cbn. constructor; auto. apply IH; auto.
    + intros I. apply N. rewrite map_app, in_app_iff. cbn. auto.
    + intros e y E. apply C1. rewrite in_app_iff. cbn. auto.
  - exfalso. apply N. rewrite map_app, in_app_iff. cbn. auto.
Qed.

Lemma covers_add_count P K B : covers P K -> ~ In theend (map fst K) -> Forall there B -> 1 <= len B < 2 ^ 32 ->
  covers (P ++ [be_enc 4 (len B)]) (K ++ B).
Proof.
  intros H. induction H as [K HK|x P L K HL HN DX HC IH|q P L K HQ HL HT HC IH|L HL]; intros N D C1.
  - cbn.
    assert (F : Forall there (K ++ B)) by (apply Forall_app; auto).
    rewrite <- (firstn_skipn (List.length B) (K ++ B)) in F |- *. apply Forall_app in F. destruct F as [F1 F2].
    set (X := firstn (List.length B) (K ++ B)) in *.
    assert (E : len X = len B). { subst X. unfold len. rewrite firstn_length, app_length. lia. }
    apply cov_count; auto. rewrite E; auto. lia. constructor. auto.
  - rewrite <- app_assoc. cbn. apply cov_id; auto. apply IH; auto.
    intros I. apply N. rewrite map_app, in_app_iff. cbn. auto.
  - rewrite <- app_assoc. cbn. apply cov_count; auto. apply IH; auto.
    intros I. apply N. rewrite map_app, in_app_iff. cbn. auto.
  - exfalso. apply N. rewrite map_app, in_app_iff. cbn. auto.
Qed.

Lemma covers_add_end P K : covers P K -> ~ In theend (map fst K) -> covers (P ++ [[]]) (K ++ [(theend, true)]).
Proof.
  intros H. induction H as [K HK|x P L K HL HN DX HC IH|q P L K HQ HL HT HC IH|L HL]; intros N.
  - cbn. apply cov_flush; auto.
  - rewrite <- app_assoc. cbn. apply cov_id; auto. apply IH; auto.
    intros I. apply N. rewrite map_app, in_app_iff. cbn. auto.
  - rewrite <- app_assoc. cbn. apply cov_count; auto. apply IH; auto.
    intros I. apply N. rewrite map_app, in_app_iff. cbn. auto.
  - exfalso. apply N. rewrite map_app, in_app_iff. cbn. auto.
Qed.

(* ---- the client reads a reply ---- *)
Definition with_wait (c : client) (w : list subj) (m : option subj) (e : bool) : client :=
  mkC (c_tree c) (c_subj c) w (c_get c) (c_ack c) (c_send c) (c_size c) m (c_changed c) e (c_up c).

Definition flushed (L : list subj) (c : client) (m : option subj) : Prop :=
  m = c_meta c \/ exists x, In x L /\ is_tree x = true /\ m = Some x.

Lemma flush_one x r c : c_up c = true -> exists m e, subj_flush x r c = Ok (with_wait c r m e) /\ flushed [x] c m.
Proof.
  intros U. unfold subj_flush, metadata, enable, set_wait, set_meta, with_wait. destruct (is_tree x) eqn:T; cbn; rewrite ?U.
  - exists (Some x), true. split; auto. right. exists x. cbn. auto.
  - exists (c_meta c), (c_en c). split; [auto|]. left. auto.
Qed.

Lemma flushed_cons x L c m e w m' : flushed [x] c m -> flushed L (with_wait c w m e) m' -> flushed (x :: L) c m'.
Proof.
  intros [->|(y & [->|[]] & T & ->)] [->|(z & I & Z & ->)]; cbn; unfold flushed; cbn; eauto 8.
Qed.

Lemma with_wait2 c w m e w' m' e' : with_wait (with_wait c w m e) w' m' e' = with_wait c w' m' e'.
Proof. auto. Qed.

Lemma flush_all_ok L : forall c, c_up c = true -> c_wait c = L ->
  exists m e, flush_all L c = Ok (with_wait c [] m e) /\ flushed L c m.
Proof.
  induction L as [|x L IH]; intros c U W.
  - exists (c_meta c), (c_en c). split; [|left; auto]. cbn. destruct c; cbn in *; subst. auto.
  - cbn [flush_all]. destruct (flush_one x L c U) as (m & e & -> & F). cbn [bind].
    destruct (IH (with_wait c L m e) U eq_refl) as (m' & e' & -> & F'). rewrite with_wait2. exists m', e'. split; auto.
    eapply flushed_cons; eauto.
Qed.

Lemma flush_n_ok L : forall rest c, c_up c = true -> c_wait c = L ++ rest ->
  exists m e, flush_n (len L) (L ++ rest) c = Ok (with_wait c rest m e) /\ flushed L c m.
Proof.
  induction L as [|x L IH]; intros rest c U W.
  - exists (c_meta c), (c_en c). split; [|left; auto]. cbn. destruct rest; cbn; destruct c; cbn in *; subst; auto.
  - cbn [flush_n app]. rewrite len_cons. destruct (1 + len L =? 0) eqn:Z; [lia|].
    destruct (flush_one x (L ++ rest) c U) as (m & e & -> & F). cbn [bind]. replace (1 + len L - 1) with (len L) by lia.
    destruct (IH rest (with_wait c (L ++ rest) m e) U eq_refl) as (m' & e' & -> & F'). rewrite with_wait2. exists m', e'. split; auto.
    eapply flushed_cons; eauto.
Qed.

Definition got (c : client) (x : subj) : client :=
  mkC (c_tree c) (c_subj c) (c_wait c) (c_get c ++ [x]) (c_ack c) (c_send c) (c_size c) (c_meta c) (c_changed c) (c_en c) (c_up c).

Lemma flush_to_ok p L : forall x rest c, c_up c = true -> c_wait c = L ++ x :: rest ->
  len p <= len (j_dig x) + 1 -> (forall y, In y L -> len p <= len (j_dig y) + 1 /\ cut (len p) (j_dig y) <> p) -> cut (len p) (j_dig x) = p ->
  exists m e, flush_to p (L ++ x :: rest) c = Ok (got (with_wait c rest m e) x) /\ flushed L c m.
Proof.
  induction L as [|y L IH]; intros x rest c U W X HL E.
  - exists (c_meta c), (c_en c). split; [|left; auto]. cbn. destruct (len (j_dig x) + 1 <? len p) eqn:Z; [lia|].
    apply bytes_eqb_true in E. rewrite E. auto.
  - cbn [flush_to app]. destruct (HL y) as [Y1 Y2]; cbn; auto. destruct (len (j_dig y) + 1 <? len p) eqn:Z; [lia|].
    apply bytes_eqb_false in Y2. rewrite Y2.
    destruct (flush_one y (L ++ x :: rest) c U) as (m & e & -> & F). cbn [bind].
    destruct (IH x rest (with_wait c (L ++ x :: rest) m e) U eq_refl X) as (m' & e' & -> & F'); auto.
    { intros z I. apply HL. cbn. auto. }
    rewrite with_wait2. exists m', e'. split; auto. eapply flushed_cons; eauto.
Qed.

Lemma flush_up x r c c' : subj_flush x r c = Ok c' -> c_up c' = c_up c.
Proof.
  unfold subj_flush, metadata, enable, set_wait, set_meta. destruct (is_tree x); cbn; [|intros [= <-]; auto].
  destruct (c_up c); [intros [= <-]; auto|discriminate].
Qed.
Lemma flush_all_up L : forall c c', flush_all L c = Ok c' -> c_up c' = c_up c.
Proof.
  induction L as [|x L IH]; intros c c'; cbn; [intros [= <-]; auto|].
  destruct (subj_flush x L c) eqn:E; cbn; try discriminate. intros H. rewrite (IH _ _ H). eapply flush_up; eauto.
Qed.
Lemma flush_n_up L : forall u c c', flush_n u L c = Ok c' -> c_up c' = c_up c.
Proof.
  induction L as [|x L IH]; intros u c c'; cbn; destruct (u =? 0); try discriminate; try (intros [= <-]; auto; fail).
  destruct (subj_flush x L c) eqn:E; cbn; try discriminate. intros H. rewrite (IH _ _ _ H). eapply flush_up; eauto.
Qed.
Lemma flush_to_up p L : forall c c', flush_to p L c = Ok c' -> c_up c' = c_up c.
Proof.
  induction L as [|x L IH]; intros c c'; cbn; try discriminate.
  destruct (_ <? _); try discriminate. destruct (bytes_eqb _ _); [intros [= <-]; auto|].
  destruct (subj_flush x L c) eqn:E; cbn; try discriminate. intros H. rewrite (IH _ _ H). eapply flush_up; eauto.
Qed.

Lemma filter_resp_up p c c' : filter_resp p c = Ok c' -> c_up c = true.
Proof.
  unfold filter_resp. intros H.
  match type of H with bind ?r _ = _ => destruct r as [c1| | |] eqn:E; cbn [bind] in H; try discriminate end.
  unfold enable in H. destruct (c_up c1) eqn:U; try discriminate. rewrite <- U. symmetry.
  clear H. destruct (len p) as [|q] eqn:Z.
  - eapply flush_all_up; eauto.
  - assert (G : (if (16 <=? N.pos q) && (N.pos q <=? 64) then
          flush_to p (c_wait c) (mkC (c_tree c) (c_subj c) (c_wait c) (c_get c) (c_ack c) (c_send c) (N.pos q) (c_meta c) (c_changed c) (c_en c) (c_up c))
        else Abort) = Ok c1 -> c_up c1 = c_up c).
    { destruct ((16 <=? N.pos q) && (N.pos q <=? 64)); intros H; [|discriminate H]. apply flush_to_up in H. auto. }
    destruct q as [q|q|]; auto. destruct q as [q|q|]; auto. destruct q as [q|q|]; auto.
    eapply flush_n_up; eauto.
Qed.

Lemma filter_resp_id p c : 16 <= len p <= 64 ->
  filter_resp p c = bind (flush_to p (c_wait c)
    (mkC (c_tree c) (c_subj c) (c_wait c) (c_get c) (c_ack c) (c_send c) (len p) (c_meta c) (c_changed c) (c_en c) (c_up c))) enable.
Proof.
  intros H. unfold filter_resp. assert (Q : (16 <=? len p) && (len p <=? 64) = true) by (apply andb_true_intro; lia).
  destruct (len p) as [|q]; [lia|].
  destruct q as [q|q|]; try (rewrite Q; auto; fail). destruct q as [q|q|]; try (rewrite Q; auto; fail).
  destruct q as [q|q|]; try (rewrite Q; auto; fail). lia.
Qed.

Lemma filter_resp_count p c : len p = 4 -> filter_resp p c = bind (flush_n (be_dec p) (c_wait c) c) enable.
Proof. unfold filter_resp. intros ->. auto. Qed.

Definition answered (c : client) (w : list subj) (g : list subj) (n : N) (m : option subj) : client :=
  mkC (c_tree c) (c_subj c) w (c_get c ++ g) (c_ack c) (c_send c) n m (c_changed c) true true.

Hypothesis SIZE : 16 <= idsize <= 64.

Lemma filter_resp_ok p P K U c : covers (p :: P) K -> (In theend (map fst K) -> U = []) ->
  (forall x, In x (map fst K) -> x = theend \/ len (j_dig x) = 64) ->
  c_up c = true -> c_wait c = map fst K ++ U ->
  exists K1 K2 m n, K = K1 ++ K2 /\ covers P K2 /\ filter_resp p c = Ok (answered c (map fst K2 ++ U) (missing K1) n m) /\
    (n = c_size c \/ n = idsize) /\ flushed (map fst (filter snd K1)) c m /\ (In theend (map fst K1) -> missing K1 = []).
Proof.
  intros H NE D64 UP W.
  assert (HC : forall L, Forall there L -> filter snd L = L).
  { induction 1 as [|e L [E1 E2] F IH]; auto. cbn. rewrite E1, IH. auto. }
  assert (HD : forall L x, Forall there L -> incl L K -> In x (map fst L) -> len (j_dig x) = 64).
  { intros L x F I X. apply in_map_iff in X. destruct X as (e & <- & X).
    destruct (D64 (fst e)) as [T|T]; auto. { apply in_map. auto. }
    rewrite Forall_forall in F. destruct (F _ X) as [_ F2]. rewrite T in F2. cbn in F2. tauto. }
  inversion H as [|x P' L K' HL HN DX HC'|q P' L K' HQ HL HT HC'|L HL]; subst; clear H.
  - (* an identifier *)
    exists (L ++ [(x, false)]), K'. rewrite map_app in W. cbn in W. rewrite <- app_assoc in W. cbn in W.
    assert (KL : len (key x) = idsize) by (apply cut_len; lia).
    set (c1 := mkC (c_tree c) (c_subj c) (c_wait c) (c_get c) (c_ack c) (c_send c) idsize (c_meta c) (c_changed c) (c_en c) (c_up c)).
    destruct (flush_to_ok (key x) (map fst L) x (map fst K' ++ U) c1 UP W) as (m & e & R & F).
    { rewrite KL, DX. lia. }
    { intros y Y. rewrite KL.
      assert (Y64 : len (j_dig y) = 64). { eapply HD; eauto. intros z Z. apply in_app_iff. auto. }
      split; [lia|]. apply in_map_iff in Y. destruct Y as (e & <- & Y). apply HN. auto. }
    { rewrite KL. auto. }
    exists m, idsize. split; [rewrite <- app_assoc; auto|]. split; auto. split.
    + rewrite filter_resp_id by lia. rewrite KL. fold c1. rewrite W, R. cbn. unfold got, with_wait, enable, answered. cbn. rewrite UP. cbn.
      rewrite missing_app, (there_missing L) by auto. cbn. auto.
    + split; auto. rewrite filter_app, (HC L) by auto. cbn. rewrite app_nil_r. split; auto.
      intros I. rewrite map_app, in_app_iff in I. destruct I as [I|[I|[]]]; [apply theend_in in I; tauto|]. cbn in I. rewrite I in DX. cbn in DX. lia.
  - (* a number *)
    exists L, K'. rewrite map_app, <- app_assoc in W.
    destruct (flush_n_ok (map fst L) (map fst K' ++ U) c UP W) as (m & e & R & F).
    exists m, (c_size c). split; auto. split; auto. split.
    + rewrite filter_resp_count by (unfold len at 1; rewrite (be_enc_length 4); auto). rewrite be_dec_enc. replace (len L mod 256 ^ N.of_nat 4) with (len (map fst L)).
      * rewrite W, R. cbn. unfold with_wait, enable, answered. cbn. rewrite UP. cbn.
        rewrite (there_missing L), app_nil_r by auto. auto.
      * unfold len at 1. rewrite map_length. fold (len L). symmetry. apply N.mod_small. change (256 ^ N.of_nat 4) with (2 ^ 32). lia.
    + split; auto. rewrite (HC L) by auto. split; auto. intros _. apply there_missing. auto.
  - (* the end *)
    exists (L ++ [(theend, true)]), []. assert (U = []) as -> by (apply NE; rewrite map_app, in_app_iff; cbn; auto). rewrite app_nil_r in *.
    destruct (flush_all_ok (c_wait c) c UP eq_refl) as (m & e & R & F).
    exists m, (c_size c). split; auto. split; [constructor; constructor|]. split.
    + unfold filter_resp. cbv [len List.length N.of_nat]. rewrite R. cbn. unfold with_wait, enable, answered. cbn. rewrite UP. cbn.
      rewrite missing_app, (there_missing L) by auto. cbn. rewrite app_nil_r. auto.
    + split; auto. rewrite filter_app, (HC L) by auto. cbn. rewrite <- W. split; auto.
      intros _. rewrite missing_app, (there_missing L) by auto. auto.
Qed.
End Proofs.
