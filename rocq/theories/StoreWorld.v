(* What holds of every archive store and get commands have worked on, at every
   moment, however many there are and whatever happens to them. *)
From Coq Require Import String Permutation.
From Coq Require Import ZifyBool ZifyNat ZifyN.
From Verif Require Import Base BaseLemmas ListLemmas IndexModel IndexSpec HeaderModel HeaderSpec HeaderProofs
  InflateSpec InflateProofs GzipModel GzipSpec GzipProofs ProgModel StoreModel StoreSpec StoreSysModel StoreWp StoreSys StoreHdr
  StoreWrite StoreCommit StoreJob StoreMain StoreGet StoreMk.
Open Scope string_scope.
Open Scope list_scope.
Open Scope N_scope.

Section World.
Variable C : conf.
Variable L : zlib.
Hypothesis CO : conf_ok C.
Hypothesis ZO : zlib_ok L.
Notation prefix := (c_prefix C).

(** * All commands keep the archive in order *)

Definition post (j : job) (a : option bytes) (own : list N) (s : fs) : Prop :=
  own = [] /\ match j with JStore r => exists x, a = Some x /\ store_post C L r x s
              | JGet zip arg => zip = false -> forall d, a = Some d -> delivered C L arg d s
              | JMk n => has_silo C L s n end.

Lemma store_post_rely own s s' r x : rely own s s' -> store_post C L r x s -> store_post C L r x s'.
Proof.
  intros R (id & E & H1 & H2 & H3 & H4 & H5). exists id. split; [auto|]. split; [auto|]. split; [auto|]. split; [auto|]. split.
  - intros M. destruct (H4 M) as (rid & V & K). exists rid. split; [auto|]. eapply known_rely; eauto.
  - destruct H5 as [(p & rest & S & X)|K]; [left|right].
    + exists p, rest. split; [|auto]. eapply stored_rely; eauto.
    + eapply known_rely; eauto.
Qed.

Lemma post_stable j a own s s' : post j a own s -> rely own s s' -> post j a own s'.
Proof.
  intros (E & H) R. split; [auto|]. destruct j.
  - destruct H as (x & -> & H). exists x. split; [auto|]. eapply store_post_rely; eauto.
  - intros Z d Ed. eapply delivered_rely; eauto.
  - eapply has_silo_rely; eauto.
Qed.
Lemma post_own j a own s : post j a own s -> own = [].
Proof. intros (E & _). auto. Qed.
Lemma post_job j s : job_ok j -> inv C L s -> wp (inv C L) (fun _ => True) (post j) [] s (job_prog C L j).
Proof.
  intros J I. destruct j as [r|z id|n]; cbn [job_prog job_ok] in *.
  - eapply wp_seq; [apply (main_store_ok C L CO ZO (fun _ => True)); auto|]. cbn beta. intros a o s' (-> & H). cbn [wp]. split; [auto|]. eauto.
  - eapply wp_conseq; [|apply (main_get_ok C L (fun _ => True)); auto]. cbn beta. intros a o s' (-> & _ & H). split; auto.
  - eapply wp_seq; [apply (main_mksilo_ok C L CO ZO (fun _ => True)); auto|]. cbn beta. intros a o s' (-> & H). cbn [wp]. split; auto.
Qed.

Notation winvo := (winvo C L post).
Notation winv := (winv C L post).

Lemma reach_winv x : reach C L x -> winv x.
Proof. apply winv_reach; [exact post_stable|exact post_own|exact post_job]. Qed.

Lemma reach_inv x : reach C L x -> inv C L (wo_fs x).
Proof. intros H. apply reach_winv in H. apply H. Qed.

Lemma reach_steps x y : reach C L x -> steps C L x y -> reach C L y.
Proof. intros (s & E & H) S. exists s. split; [auto|]. revert H. induction S as [a|a b c S1 IH S2]; intros H; [auto|]. apply (steps_step C L _ b); auto. Qed.

Lemma reach_grow x y : reach C L x -> steps C L x y -> rely [] (wo_fs x) (wo_fs y).
Proof. intros H. apply (steps_grow C L post); [exact post_stable|exact post_own|exact post_job|]. apply reach_winv. auto. Qed.

Lemma history_reach tr x : history C L tr x -> reach C L x.
Proof.
  intros H. induction H as [s E|tr x e y H IH S|tr x y H IH S].
  - exists s. split; [auto|constructor].
  - eapply reach_steps; [exact IH|]. eapply steps_step; [constructor|]. exists (Some e). auto.
  - eapply reach_steps; [exact IH|]. eapply steps_step; [constructor|]. exists None. auto.
Qed.

(** * Locks *)

Lemma winvo_step x l y owns : inv C L (wo_fs x) -> winvo owns x -> lstep C L x l y ->
  inv C L (wo_fs y) /\ exists owns', winvo owns' y /\ owns_step (wo_fs x) owns l y owns'.
Proof. apply winv_lstep; [exact post_stable|exact post_own|exact post_job]. Qed.

Lemma concat_nth (owns : list (list N)) n : In n (concat owns) <-> exists i, In n (nth i owns []).
Proof.
  split.
  - intros H. apply in_concat in H. destruct H as (o & H1 & H2). destruct (In_nth _ _ [] H1) as (i & _ & E). exists i. rewrite E. auto.
  - intros (i & H). destruct (Nat.lt_ge_cases i (List.length owns)) as [X|X].
    + apply in_concat. eexists. split; [|exact H]. apply nth_In. auto.
    + rewrite nth_overflow in H by auto. destruct H.
Qed.

Definition hinv (tr : list event) (x : world) (owns : list (list N)) : Prop :=
  inv C L (wo_fs x) /\ winvo owns x /\
  (forall i n, In n (nth i owns []) -> holder tr n = Some i) /\
  (forall n, holder tr n = None <-> f_hold (wo_fs x) n = None).

Lemma exec_hold c s n : f_hold (fst (exec c s)) n =
  match c with
  | CCreat m => if m =? n then match f_hold s n with Some h => Some h | None => Some [] end else f_hold s n
  | CWrite m d => if m =? n then Some (hold_of s n ++ d) else f_hold s n
  | CPwrite m off d => if m =? n then Some (file_write (hold_of s n) off d) else f_hold s n
  | CUnlink m => if m =? n then None else f_hold s n
  | _ => f_hold s n
  end.
Proof.
  destruct c; cbn [exec fst]; auto; try (cbn [set_hold f_hold]; unfold upd; rewrite (N.eqb_sym n n0); destruct (n0 =? n) eqn:X; auto;
    apply N.eqb_eq in X; subst; auto).
  - destruct (f_hold s n0) eqn:F; cbn [fst set_hold f_hold].
    + destruct (n0 =? n) eqn:X; auto. apply N.eqb_eq in X. subst. rewrite F. auto.
    + unfold upd. rewrite (N.eqb_sym n n0). destruct (n0 =? n) eqn:X; auto. apply N.eqb_eq in X. subst. rewrite F. auto.
  - destruct (f_silo s n0); auto.
  - destruct (f_silo s n0) as [[b w]|]; auto.
Qed.

Lemma nth_mid {A} (l1 l2 : list A) x d i : nth i (l1 ++ x :: l2) d = if Nat.eq_dec i (List.length l1) then x else nth i (l1 ++ d :: l2) d.
Proof.
  destruct (Nat.eq_dec i (List.length l1)) as [->|X]; [apply nth_middle|].
  destruct (Nat.lt_ge_cases i (List.length l1)).
  - rewrite !app_nth1 by auto. auto.
  - rewrite !app_nth2 by auto. destruct (i - List.length l1)%nat eqn:Y; [lia|]. auto.
Qed.

Lemma lstep_hold x l y : lstep C L x l y ->
  match l with
  | None => forall n, f_hold (wo_fs y) n = f_hold (wo_fs x) n
  | Some e => (wo_fs y = fst (exec (ev_call e) (wo_fs x)) /\ ev_ok e = created (ev_call e) (snd (exec (ev_call e) (wo_fs x)))) \/
              torn (ev_call e) (wo_fs x) (wo_fs y)
  end.
Proof. intros S. destruct S; cbn [wo_fs ev_call ev_ok]; auto. Qed.

Lemma hist_inv tr x : history C L tr x -> exists owns, hinv tr x owns.
Proof.
  intros H. induction H as [s E|tr x e y H (owns & I & W & O & F) S|tr x y H (owns & I & W & O & F) S].
  - exists []. split; [apply inv_empty; auto|]. split; [apply winvo_empty; auto|]. split.
    + intros [|i] n [].
    + intros n. destruct E as (_ & E & _). rewrite E. split; auto.
  - destruct (winvo_step _ _ _ _ I W S) as (I' & owns' & W' & l1 & own & l2 & E1 & E2 & LG & own' & E3 & X).
    exists owns'. split; [auto|]. split; [auto|].
    assert (HE : forall n, In n own -> holder tr n = Some (ev_proc e)).
    { intros n Hn. apply O. rewrite <- E2, E1, nth_middle. auto. }
    assert (HO : forall n, In n own -> f_hold (wo_fs x) n <> None).
    { intros n Hn Y. apply F in Y. rewrite HE in Y by auto. discriminate. }
    assert (TK : forall n, holder (tr ++ [e]) n = take n (holder tr n) e) by (intros; unfold holder; apply fold_left_app).
    assert (OT : forall i n, i <> ev_proc e -> In n (nth i owns' []) -> In n (nth i owns []) /\ ~ In n own).
    { intros i n Hi Hn. rewrite E3, nth_mid in Hn. rewrite E1, nth_mid. rewrite <- E2 in Hi. destruct (Nat.eq_dec i (List.length l1)); [congruence|].
      split; [exact Hn|]. intros Y. apply HE in Y.
      assert (Z : holder tr n = Some i). { apply O. rewrite E1, nth_mid. destruct (Nat.eq_dec i (List.length l1)); [congruence|]. exact Hn. }
      congruence. }
    assert (FH : forall n, holder (tr ++ [e]) n = None <-> f_hold (wo_fs y) n = None).
    { intros n. rewrite TK. unfold take. destruct (lstep_hold _ _ _ S) as [(-> & EO)|T].
      - rewrite EO. clear - F LG HO HE. destruct (ev_call e) as [|k|k|k|k d|k off d|k off m|k|k|k|k|k d| |a b|ie|kk|k] eqn:EC; rewrite exec_hold;
          cbn [created exec snd legal] in *; auto.
        + destruct (k =? n) eqn:K; cbn [andb]; [|auto]. apply N.eqb_eq in K. subst k. destruct (f_hold (wo_fs x) n) eqn:G; cbn [snd].
          * rewrite F, G. split; intros; discriminate.
          * split; discriminate.
        + destruct (k =? n) eqn:K; [|auto]. apply N.eqb_eq in K. subst k. rewrite HE by auto. split; discriminate.
        + destruct (k =? n) eqn:K; [|auto]. apply N.eqb_eq in K. subst k. rewrite HE by auto. split; discriminate.
        + destruct (k =? n); [tauto|auto].
      - revert T LG. generalize (ev_call e). clear - F HO HE. intros c T LG.
        destruct T as [k d d' s X1|k off d d' s X1|k d d' s X1]; cbn [legal] in LG; rewrite exec_hold; auto;
          destruct (k =? n) eqn:K; auto; apply N.eqb_eq in K; subst k; rewrite HE by auto; split; discriminate. }
    split; [|exact FH].
    intros i n Hn. rewrite TK.
    destruct (Nat.eq_dec i (ev_proc e)) as [->|Hi].
    + rewrite E3, <- E2, nth_middle in Hn. destruct X as [(-> & EO)|(-> & _)]; [|destruct Hn].
      unfold take. rewrite EO. clear - Hn HE HO LG. destruct (ev_call e) as [|k|k|k|k d|k off d|k off m|k|k|k|k|k d| |a b|ie|kk|k] eqn:EC;
        cbn [own_after created exec snd legal] in *; auto.
      * destruct (f_hold (wo_fs x) k) eqn:G; cbn [snd] in *; [rewrite andb_false_r; auto|]. rewrite andb_true_r.
        destruct (k =? n) eqn:K; [auto|]. apply N.eqb_neq in K. destruct Hn as [|Hn]; [congruence|]. auto.
      * apply in_remove in Hn. destruct Hn as (Hn & Y). replace (k =? n) with false; auto. symmetry. apply N.eqb_neq. auto.
    + destruct (OT i n Hi Hn) as (Y & Z). specialize (O i n Y). unfold take.
      assert (FN : f_hold (wo_fs x) n <> None). { intros V. apply F in V. congruence. }
      destruct (lstep_hold _ _ _ S) as [(_ & EO)|T].
      * rewrite EO. clear - O Z FN LG. destruct (ev_call e) as [|k|k|k|k d|k off d|k off m|k|k|k|k|k d| |a b|ie|kk|k] eqn:EC; cbn [created exec snd legal] in *; auto.
        -- destruct (k =? n) eqn:K; cbn [andb]; auto. apply N.eqb_eq in K. subst k. destruct (f_hold (wo_fs x) n) eqn:G; cbn [snd]; [auto|congruence].
        -- destruct (k =? n) eqn:K; auto. apply N.eqb_eq in K. subst k. tauto.
      * inversion T; auto.
  - destruct (winvo_step _ _ _ _ I W S) as (I' & owns' & W' & X). exists owns'. split; [auto|]. split; [auto|]. split.
    + intros i n Hn. apply O. destruct (X i) as [X'|(X' & _)]; rewrite X' in Hn; [auto|destruct Hn].
    + intros n. rewrite (lstep_hold _ _ _ S). auto.
Qed.

(* Work on a number is only done by who has it; a number is only given to who
   asks for it while nobody has it. *)
Lemma locks tr x e y : history C L tr x -> lstep C L x (Some e) y ->
  (forall n, works_on (ev_call e) n -> holder tr n = Some (ev_proc e)) /\
  (forall n, ev_call e = CCreat n -> ev_ok e = true <-> holder tr n = None).
Proof.
  intros H S. destruct (hist_inv _ _ H) as (owns & I & W & O & F).
  destruct (winvo_step _ _ _ _ I W S) as (I' & owns' & W' & l1 & own & l2 & E1 & E2 & LG & _).
  assert (HE : forall n, In n own -> holder tr n = Some (ev_proc e)).
  { intros n Hn. apply O. rewrite <- E2, E1, nth_middle. auto. }
  split.
  - intros n Hn. apply HE. destruct (ev_call e); cbn [works_on legal] in *; try contradiction; subst; auto. tauto.
  - intros n Hn. rewrite F. destruct (lstep_hold _ _ _ S) as [(_ & ->)|T].
    + rewrite Hn. cbn [created exec snd]. destruct (f_hold (wo_fs x) n); cbn [snd]; split; auto; discriminate.
    + rewrite Hn in T. inversion T.
Qed.

(** * Index entries and records *)

Lemma layout_at o b l : layout C L o b l -> forall o' w, In (o', w) l -> exists a r z, b = a ++ r ++ z /\ o' = o + len a /\ record C L r w.
Proof.
  intros H. induction H as [o|o r w s l HR HL IH]; intros o' w' X; [destruct X|]. destruct X as [X|X].
  - injection X as <- <-. exists [], r, s. rewrite len_nil. split; [auto|]. split; [lia|auto].
  - destruct (IH _ _ X) as (a & r' & z & -> & -> & R). exists (r ++ a), r', z. rewrite len_app, <- !app_assoc. split; [auto|]. split; [lia|auto].
Qed.

Lemma Forall2_in_r {X Y} (P : X -> Y -> Prop) l l' y : Forall2 P l l' -> In y l' -> exists x, In x l /\ P x y.
Proof.
  intros H. induction H; intros HI; [destruct HI|]. destruct HI as [->|HI]; [exists x; split; [left|]; auto|].
  destruct (IHForall2 HI) as (z & ? & ?). exists z. split; [right|]; auto.
Qed.

Lemma silo_entry n b es e : silo_ok C L n b es -> In e es -> exists a r z w, b = a ++ r ++ z /\ record C L r w /\ entry_for n (len a) w e.
Proof.
  intros (w & l & es' & HL & _ & _ & _ & P & F) H. apply (Permutation_in _ P) in H.
  destruct (Forall2_in_r _ _ _ _ F H) as ((o, w') & Hi & E). destruct (layout_at _ _ _ HL _ _ Hi) as (a & r & z & -> & -> & R).
  exists a, r, z, w'. split; [auto|]. split; [auto|]. exact E.
Qed.

Lemma in_entries s e : In e (f_idx s) -> In e (entries s (e_silo e)).
Proof. intros H. apply filter_In. split; [auto|]. apply N.eqb_refl. Qed.

Lemma entry_place s e : inv C L s -> In e (f_idx s) ->
  (exists w, in_archive C L s (e_silo e) (e_off e) w e) \/
  (exists h, f_hold s (e_silo e) = Some h /\ good_in C L (e_silo e) h e).
Proof.
  intros ((A & _) & _) H. specialize (A (e_silo e)). pose proof (in_entries s e H) as HE.
  assert (G : forall b w es, f_silo s (e_silo e) = Some (b, w) -> (exists b0 t, b = b0 ++ t /\ silo_ok C L (e_silo e) b0 es) -> In e es ->
     exists w, in_archive C L s (e_silo e) (e_off e) w e).
  { intros b w es F (b0 & t & -> & S) X. destruct (silo_entry _ _ _ _ S X) as (a & r & z & w' & -> & R & E). exists w'.
    pose proof E as (E1 & E2 & _). split; [auto|]. split; [rewrite E2; exact E|]. exists ((a ++ r ++ z) ++ t), w, a, r, (z ++ t).
    split; [auto|]. rewrite <- !app_assoc. auto. }
  destruct (f_hold s (e_silo e)) as [h|] eqn:FH.
  - destruct A as (es1 & es2 & P & S & GI). apply (Permutation_in _ P) in HE. apply in_app_iff in HE. destruct HE as [X|X].
    + left. destruct (f_silo s (e_silo e)) as [[b w]|] eqn:FS; [|subst es1; destruct X]. eapply G; eauto.
    + right. exists h. split; [auto|]. rewrite Forall_forall in GI. auto.
  - left. unfold settled in A. destruct (f_silo s (e_silo e)) as [[b w]|] eqn:FS; [|rewrite A in HE; destruct HE].
    eapply G; eauto. exists b, []. rewrite app_nil_r. auto.
Qed.

Lemma entry_settled s e : inv C L s -> In e (f_idx s) -> f_hold s (e_silo e) = None -> exists w, in_archive C L s (e_silo e) (e_off e) w e.
Proof. intros I H F. destruct (entry_place s e I H) as [|(h & X & _)]; [auto|congruence]. Qed.

Lemma quiet_settled s n : inv C L s -> f_hold s n = None -> settled C L (f_silo s n) n (entries s n).
Proof. intros ((A & _) & _) H. specialize (A n). rewrite H in A. exact A. Qed.

(* when all commands have come to their end there are no holds *)
Lemma all_done x : reach C L x -> (forall j p, In (j, p) (wo_procs x) -> exists a, p = Ret a) -> forall n, f_hold (wo_fs x) n = None.
Proof.
  intros H HR n. destruct (reach_winv x H) as (_ & owns & HF & _ & _ & HH).
  destruct (f_hold (wo_fs x) n) eqn:F; [|auto]. exfalso. destruct (HH n) as [X|(j & d & X)]; [congruence| |].
  - assert (E : concat owns = []).
    { clear - HF HR. induction HF as [|o [j p] os ps P HF IH]; [auto|]. cbn [concat]. rewrite IH by (intros j0 p0 Hp; apply (HR j0 p0); right; auto).
      rewrite app_nil_r. destruct (HR j p (or_introl eq_refl)) as (a & ->). unfold procok in P. cbn [fst snd wp] in P. apply P. }
    rewrite E in X. destruct X.
  - destruct (HR _ _ X) as (a & E). discriminate.
Qed.

(** * Results of commands *)

Lemma done_post x j a : reach C L x -> In (j, Ret a) (wo_procs x) -> post j a [] (wo_fs x).
Proof.
  intros H HI. destruct (reach_winv x H) as (_ & owns & HF & _). apply in_split in HI. destruct HI as (l1 & l2 & E). rewrite E in HF.
  destruct (Forall2_mid _ _ _ _ _ HF) as (o1 & own & o2 & _ & _ & P & _). unfold procok in P. cbn [fst snd wp] in P.
  pose proof P as (-> & _). exact P.
Qed.

Lemma flag_first hd fl : hsorted (h_fields hd) -> flags_for hd fl -> flag fl IDX_F_WARCINFO = false ->
  flag fl IDX_F_SEGMENTED && negb (flag fl IDX_F_FIRSTSEG) = false ->
  ~ has hd "WARC-Type" (str "warcinfo") /\ (hasnt hd "WARC-Segment-Number" \/ has hd "WARC-Segment-Number" (str "1")).
Proof.
  intros S F F1 F2. pose proof F as (t & T & _). pose proof (flags_val hd t fl S T F) as E.
  assert (TF : type_flag t = 2 \/ type_flag t = 4 \/ type_flag t = 8 \/ type_flag t = 0).
  { unfold type_flag. destruct (bytes_eqb _ _); [auto|]. destruct (bytes_eqb _ _); [auto|]. destruct (bytes_eqb _ _); auto. }
  split.
  - intros W. rewrite has_get in T, W by auto. assert (t = str "warcinfo") by congruence. subst t. change (type_flag (str "warcinfo")) with 2 in E.
    clear - E F1. destruct (hget hd "WARC-Segment-Number") as [k|]; [destruct (bytes_eqb k (str "1")), (hget hd "WARC-Segment-Total-Length")|]; subst fl; discriminate.
  - destruct (hget hd "WARC-Segment-Number") as [k|] eqn:K; [|left; apply hasnt_get; auto]. right. apply has_get; auto.
    destruct (bytes_eqb k (str "1")) eqn:B; [apply bytes_eqb_true in B; congruence|]. exfalso.
    destruct TF as [X|[X|[X|X]]]; rewrite X in E; destruct (hget hd "WARC-Segment-Total-Length"); subst fl; discriminate.
Qed.

Lemma known_present s nid hd : inv C L s -> (forall n, f_hold s n = None) -> known_hdr C s nid hd ->
  exists w, present C L s nid w /\ wr_hdr w = hd.
Proof.
  intros I Q (e & H & _ & F1 & F2 & b & w0 & bl & bo & FS & RH & CE).
  destruct (entry_settled s e I H (Q _)) as (w & IA). exists w.
  destruct (at_entry C L CO s _ _ _ _ IA) as (b' & a & H' & B & z & wr & FS' & _ & _ & S & RH').
  assert (b' = b) by congruence. subst b'. assert (EH : wr_hdr w = hd) by congruence. split; [|auto].
  exists (e_silo e), (e_off e), e. split; [auto|]. rewrite EH. split; [apply caseeq_lower; auto|].
  apply (flag_first hd (e_flags e)); auto; [rewrite <- EH; auto|]. destruct IA as (_ & (_ & _ & _ & X & _) & _). rewrite EH in X. exact X.
Qed.

(* the outcome of a store command *)
Lemma store_outcome x r a : reach C L x -> In (JStore r, Ret a) (wo_procs x) -> exists id,
  a = Some (prefix ++ id) /\ Forall (fun c => is_hex c = true) id /\ len id = c_idsize C /\ req_id C (z_sha L) r id /\
  ((exists p rest, stored_as C L (wo_fs x) (req_type r) id (List.concat (r_data r)) (p :: rest) /\
      has (wr_hdr (p_rec p)) "Content-Type" (r_mime r) /\
      (r_meta r = true -> has (wr_hdr (p_rec p)) "WARC-Refers-To" (str "<" ++ full_ref C r ++ str ">"))) \/
   ((forall n, f_hold (wo_fs x) n = None) -> exists w, present C L (wo_fs x) id w)).
Proof.
  intros H HI. destruct (done_post x _ _ H HI) as (_ & y & -> & id & -> & H1 & H2 & H3 & H4 & H5).
  exists id. split; [auto|]. split; [auto|]. split; [auto|]. split; [auto|]. destruct H5 as [S|(hd & K)]; [left; exact S|right].
  intros Q. destruct (known_present _ _ _ (reach_inv x H) Q K) as (w & P & _). eauto.
Qed.

(* what metadata refers to is there *)
Lemma meta_refers x r a : reach C L x -> In (JStore r, Ret a) (wo_procs x) -> r_meta r = true -> (forall n, f_hold (wo_fs x) n = None) ->
  exists rid w, IDX_Valid_Id prefix (c_idsize C) (full_ref C r) = IdOk rid /\ present C L (wo_fs x) rid w.
Proof.
  intros H HI M Q. destruct (done_post x _ _ H HI) as (_ & y & -> & id & -> & _ & _ & _ & H4 & _).
  destruct (H4 M) as (rid & V & hd & K). destruct (known_present _ _ _ (reach_inv x H) Q K) as (w & P & _). eauto.
Qed.

(* what get delivers has the digest it was asked by *)
Lemma get_digest x arg d : reach C L x -> In (JGet false arg, Ret (Some d)) (wo_procs x) -> (forall n, f_hold (wo_fs x) n = None) ->
  exists nid w, IDX_Valid_Id prefix (c_idsize C) arg = IdOk nid /\ present C L (wo_fs x) nid w /\
    (has (wr_hdr w) "WARC-Type" (str "resource") -> lower (firstn (N.to_nat (c_idsize C)) (z_sha L d)) = lower nid).
Proof.
  intros H HI Q. destruct (done_post x _ _ H HI) as (_ & D). destruct (D eq_refl d eq_refl) as (nid & hd & p & V & K & HP & P7 & PD).
  destruct (known_present _ _ _ (reach_inv x H) Q K) as (w & P & E). exists nid, w. split; [auto|]. split; [auto|]. intros T.
  pose proof P as (n & o & e & IA & EL & _). destruct IA as (_ & _ & b & wr & a & r & z & _ & _ & _ & R).
  destruct R as (H' & B & _ & DS & NM & _ & (_ & WS & _) & _). rewrite <- E in HP. fold (hget (wr_hdr w) "WARC-Payload-Digest") in HP. fold (hget (wr_hdr w) "WARC-Block-Digest") in HP.
  destruct (proj1 NM T) as (x0 & EI & [(_ & NP & ->)|(_ & HD)]).
  - apply hasnt_get in NP. destruct HP as [HP|(_ & HP)]; [congruence|]. destruct DS as (_ & DS). rewrite has_get in DS by auto.
    assert (p = str "sha256:" ++ z_sha L (wr_data w)) by congruence. subst p. rewrite <- EL, EI, <- PD. reflexivity.
  - rewrite has_get in HD by auto. destruct HP as [HP|(HP & _)]; [|congruence]. assert (p = str "sha256:" ++ x0) by congruence. subst p.
    rewrite <- EL, EI, <- PD. reflexivity.
Qed.
End World.
