(* Histories of index operations: from the invariant to what lookups show. *)
From Coq Require Import List NArith ZArith Bool Lia Sorting.Sorted Sorting.Permutation.
From Coq Require Import ZifyBool ZifyNat ZifyN.
From Verif Require Import Base BaseLemmas IndexModel IndexSpec IndexSysModel IndexSysSpec
  IndexProofs IndexBucket IndexLookup IndexHk.
Ltac Zify.zify_post_hook ::= Z.div_mod_to_equations.
Open Scope N_scope.

(* split conjunctions only *)
Ltac conjs := repeat match goal with |- _ /\ _ => split end.

Lemma hinv_idx_ok L y S I : hinv L y S I ->
  idx_ok (y_fs y) S (orec I (f_app (y_fs y))) (orec I (f_hk (y_fs y))).
Proof.
  intros H. destruct (hinv_recs _ _ _ _ H) as [RS RI].
  assert (Inc : incl (S ++ orec I (f_app (y_fs y)) ++ orec I (f_hk (y_fs y))) L).
  { apply incl_app; [|apply incl_app].
    - apply cnt_incl. apply H.
    - destruct (f_app (y_fs y)); simpl; [|intros ? []]. apply cnt_incl. apply H.
    - destruct (f_hk (y_fs y)); simpl; [|intros ? []]. apply cnt_incl. apply H. }
  constructor.
  - apply H.
  - unfold app_data, plain_ok. destruct (f_app (y_fs y)); simpl; auto. apply ino_data_concat. apply H.
  - unfold hk_data, plain_ok. destruct (f_hk (y_fs y)); simpl; auto. apply ino_data_concat. apply H.
  - rewrite Forall_forall. intros r Hr. assert (X := hi_rec _ _ _ _ H). rewrite Forall_forall in X. auto.
  - rewrite Forall_forall. intros r Hr. assert (X := hi_off _ _ _ _ H). rewrite Forall_forall in X. auto.
Qed.

Lemma hinv_visible L y S I : hinv L y S I ->
  forall r, In r (S ++ orec I (f_app (y_fs y)) ++ orec I (f_hk (y_fs y))) <-> In r L.
Proof.
  intros H r. split.
  - intros Hr. apply in_app_or in Hr. destruct Hr as [Hr|Hr].
    { eapply cnt_incl; [apply (hi_cs _ _ _ _ H)|auto]. }
    apply in_app_or in Hr. destruct Hr as [Hr|Hr].
    + destruct (f_app (y_fs y)); simpl in Hr; [|contradiction]. eapply cnt_incl; [apply (hi_ci _ _ _ _ H)|eauto].
    + destruct (f_hk (y_fs y)); simpl in Hr; [|contradiction]. eapply cnt_incl; [apply (hi_ci _ _ _ _ H)|eauto].
  - intros Hr. apply (hi_vis _ _ _ _ H) in Hr. rewrite !in_app_iff. auto.
Qed.

(* full dump *)
Lemma filter_true {A} (l : list A) : filter (fun _ => true) l = l.
Proof. induction l; simpl; congruence. Qed.

Lemma lookup_all L y S I : hinv L y S I ->
  lookup (y_fs y) None = Ok (ents (S ++ orec I (f_app (y_fs y)) ++ orec I (f_hk (y_fs y)))).
Proof.
  intros H. rewrite (lookup_exact _ S _ _ None (hinv_idx_ok _ _ _ _ H)); simpl; auto using seek_fine_null.
  rewrite filter_true. auto.
Qed.

Lemma lookup_all_set L y S I : hinv L y S I ->
  exists l, lookup (y_fs y) None = Ok l /\ forall e, In e l <-> In e (ents L).
Proof.
  intros H. eexists. split; [eapply lookup_all; eauto|].
  intros e. unfold ents. rewrite !in_map_iff.
  split; intros (r & <- & Hr); exists r; split; auto; apply (hinv_visible _ _ _ _ H) in Hr; auto.
Qed.

(** * Every interleaving *)

Lemma sys_step_inv id_size sort_size L y S I e :
  hinv L y S I -> small_hist L -> ok_conf id_size sort_size -> ok_ev e ->
  exists y' L' S' I', sys_step id_size sort_size y e = Ok y' /\ hinv L' y' S' I' /\
    ents L' = ents L ++ ideal_evs [e] /\ grow S S' /\
    (forall i, incl (nth i I []) (nth i I' [])).
Proof.
  intros H Hs (Hc1 & Hc2 & Hc3) He. destruct e as [key flags silo offset cont| |k|]; cbn [sys_step ideal_evs].
  - destruct (hinv_insert id_size L y S I key flags silo offset cont H ltac:(lia) He)
      as (r & st & E & Er & I' & H' & _ & _ & _ & _ & _ & _ & Hinc). rewrite E. cbn [bind].
    exists (mkSys st (y_pc y)), (L ++ [r]), S, I'. conjs; auto using grow_refl.
    unfold ents. rewrite map_app. simpl. rewrite Er. auto.
  - exists (mkSys (y_fs y) (y_pc y ++ [HHold])), L, S, I. conjs; auto using grow_refl, hinv_start, hinv_crash, incl_refl; rewrite ?app_nil_r; auto using grow_refl, incl_refl.
  - destruct (nth_error (y_pc y) k) as [pc|] eqn:Ek.
    + destruct y as [st pcs]. cbn [y_fs y_pc] in *.
      destruct (hk_step_inv sort_size L st pcs k pc S I H Hs ltac:(lia) Hc3 Ek) as (S' & H' & Hi).
      destruct (hk_step sort_size st pc) as [st' pc'] eqn:E.
      exists (mkSys st' (set_nth k pc' pcs)), L, S', I. conjs; auto using incl_refl; rewrite ?app_nil_r; auto.
    + exists y, L, S, I. conjs; auto using grow_refl, hinv_start, hinv_crash, incl_refl; rewrite ?app_nil_r; auto using grow_refl, incl_refl.
  - exists (mkSys (unhold (y_fs y)) []), L, S, I. conjs; auto using grow_refl, hinv_start, hinv_crash, incl_refl; rewrite ?app_nil_r; auto using grow_refl, incl_refl.
Qed.

Lemma ideal_evs_app a b : ideal_evs (a ++ b) = ideal_evs a ++ ideal_evs b.
Proof. induction a as [|e a IH]; simpl; auto. destruct e; simpl; rewrite IH; auto. Qed.

Lemma sys_run_inv id_size sort_size : ok_conf id_size sort_size -> forall evs L y S I,
  hinv L y S I -> len L + len (ideal_evs evs) < 2 ^ 38 -> Forall ok_ev evs ->
  exists y' L' S' I', sys_run id_size sort_size y evs = Ok y' /\ hinv L' y' S' I' /\
    ents L' = ents L ++ ideal_evs evs /\ grow S S'.
Proof.
  intros Hc. induction evs as [|e evs IH]; intros L y S I H Hs Hev.
  - exists y, L, S, I. cbn [sys_run ideal_evs]. conjs; auto using grow_refl. rewrite app_nil_r; auto.
  - apply Forall_cons_iff in Hev. destruct Hev as [He Hev].
    change (e :: evs) with ([e] ++ evs) in Hs. rewrite ideal_evs_app in Hs. unfold len in Hs. rewrite app_length in Hs.
    destruct (sys_step_inv id_size sort_size L y S I e H) as (y1 & L1 & S1 & I1 & E1 & H1 & EL1 & Hi1 & _); auto.
    { unfold small_hist, len. lia. }
    assert (Ll : length L1 = (length L + length (ideal_evs [e]))%nat).
    { unfold ents in EL1. apply (f_equal (@length _)) in EL1. rewrite app_length, !map_length in EL1. auto. }
    destruct (IH L1 y1 S1 I1 H1) as (y2 & L2 & S2 & I2 & E2 & H2 & EL2 & Hi2); auto.
    { unfold len. lia. }
    exists y2, L2, S2, I2. cbn [sys_run]. rewrite E1. cbn [bind]. conjs; auto.
    + rewrite EL2, EL1, <- app_assoc. f_equal. change (e :: evs) with ([e] ++ evs). rewrite ideal_evs_app. auto.
    + eapply grow_trans; eauto.
Qed.

(** * One housekeeping run without interference *)

Definition left_to_read (st : ifs) (i pos : nat) : nat := (length (ino_data st i) - pos)%nat.

Definition hk_mu (st : ifs) (pc : hk_pc) : nat :=
  let T := length (concat (f_ino st)) in
  let rd (again : bool) i pos := ((if again then 8 + 3 * T else 3) + 3 * left_to_read st i pos)%nat in
  match pc with
  | HDone | HAbort => 0
  | HUnhold => 1
  | HUnlinkHk false => 2
  | HRead a i pos => rd a i pos
  | HMerge a i pos _ _ => rd a i pos + 2
  | HRename a i pos _ _ => rd a i pos + 1
  | HOpen false => 4 + 3 * T
  | HUnlinkApp => 5 + 3 * T
  | HLink => match f_hk st with None => 6 + 3 * T | Some _ => 10 + 6 * T end
  | HUnlinkHk true => 7 + 3 * T
  | HOpen true => 9 + 6 * T
  | HHold => 11 + 6 * T
  end%nat.

Lemma ino_le_total st i : (length (ino_data st i) <= length (concat (f_ino st)))%nat.
Proof.
  unfold ino_data. generalize (f_ino st). intros l. revert i; induction l as [|x l IH]; intros [|i]; simpl; try lia.
  - rewrite app_length. lia.
  - rewrite app_length. specialize (IH i). lia.
Qed.

Lemma hk_mu_dec sort_size st pc : 32 <= sort_size -> crit pc = true \/ pc = HHold ->
  (hk_mu (fst (hk_step sort_size st pc)) (snd (hk_step sort_size st pc)) < hk_mu st pc)%nat.
Proof.
  intros Hss Hc. unfold hk_mu, left_to_read, ino_data.
  destruct pc; try (destruct Hc; discriminate); cbn [hk_step].
  - destruct (f_hold st); cbn [fst snd f_ino f_hk]; [lia|]. destruct (f_hk st); lia.
  - destruct (f_app st); [|destruct (f_hk st); cbn [fst snd]; lia].
    destruct (f_hk st) eqn:E; cbn [fst snd f_ino f_hk]; lia.
  - destruct (f_app st); cbn [fst snd f_ino]; lia.
  - destruct (f_hk st) as [h|]; cbn [fst snd]; [|destruct again; lia].
    assert (X := ino_le_total st h). unfold ino_data in X. destruct again; lia.
  - set (buf := firstn (N.to_nat sort_size) (skipn pos (ino_data st ino))).
    destruct (Nat.eqb_spec (length buf) 0) as [E|E]; cbn [fst snd]. { destruct again; lia. }
    assert (Hb : (length buf <= length (ino_data st ino) - pos)%nat).
    { unfold buf. rewrite firstn_length, skipn_length. lia. }
    unfold ino_data in Hb.
    destruct (negb _); cbn [fst snd]; [destruct again; lia|].
    cbv zeta. lia.
  - destruct (idx_merge _ _); cbn [fst snd]; destruct again; lia.
  - cbn [fst snd f_ino]. destruct full, again; lia.
  - destruct (f_hk st) as [h|]; cbn [fst snd f_ino f_hk]; destruct again; lia.
  - cbn [fst snd]. lia.
Qed.

Definition solo (app0 hk0 : option nat) (st : ifs) (pc : hk_pc) : Prop :=
  match pc with
  | HHold => f_app st = app0 /\ f_hk st = hk0 /\ f_hold st = false
  | HLink => f_app st = app0 /\ (app0 = None -> f_hk st = hk0)
  | HUnlinkApp => app0 <> None
  | HOpen true | HRead true _ _ | HMerge true _ _ _ _ | HRename true _ _ _ _ | HUnlinkHk true =>
      f_app st = app0 /\ app0 <> None
  | HOpen false | HRead false _ _ | HMerge false _ _ _ _ | HRename false _ _ _ _ | HUnlinkHk false =>
      f_app st = None
  | HUnhold => f_app st = None /\ (f_hk st = None \/ (app0 = None /\ f_hk st = hk0))
  | HDone => f_app st = None /\ (f_hk st = None \/ (app0 = None /\ f_hk st = hk0)) /\ f_hold st = false
  | HAbort => True
  end.

Lemma solo_step sort_size app0 hk0 st pc : solo app0 hk0 st pc ->
  solo app0 hk0 (fst (hk_step sort_size st pc)) (snd (hk_step sort_size st pc)).
Proof.
  destruct pc; cbn [hk_step]; unfold solo; intros H.
  - destruct H as (H1 & H2 & H3). rewrite H3. cbn [fst snd f_app f_hk]. auto.
  - destruct H as (H1 & H2). destruct (f_app st) as [a|] eqn:Ea.
    + destruct (f_hk st) eqn:Eh; cbn [fst snd]; [split|]; congruence.
    + cbn [fst snd]. rewrite Ea. split; auto.
  - destruct (f_app st); cbn [fst snd f_app]; auto.
  - destruct (f_hk st); cbn [fst snd]; auto.
  - destruct (Nat.eqb _ 0); cbn [fst snd]; auto.
    destruct (negb _); cbn [fst snd]; auto.
  - destruct (idx_merge _ _); cbn [fst snd]; auto.
  - cbn [fst snd]. destruct full; cbn [f_app]; auto.
  - destruct (f_hk st); cbn [fst snd]; auto. destruct again; cbn [f_app f_hk]; auto.
    destruct H; split; auto. intros; congruence.
  - cbn [fst snd f_app f_hk f_hold]. destruct H; auto.
  - auto.
  - auto.
Qed.

Lemma solo_run sort_size L app0 hk0 : small_hist L -> 32 <= sort_size -> sort_size mod 32 = 0 ->
  forall fuel st pc S I, hinv L (mkSys st [pc]) S I -> solo app0 hk0 st pc ->
  (hk_mu st pc <= fuel)%nat ->
  exists st' S', hk_run fuel sort_size st pc = (st', HDone) /\
    hinv L (mkSys st' [HDone]) S' I /\ solo app0 hk0 st' HDone /\ grow S S'.
Proof.
  intros Hsm Hss Hmod. induction fuel as [|fuel IH]; intros st pc S I H Hsolo Hmu.
  - destruct pc; unfold hk_mu in Hmu; cbv zeta in Hmu; try lia; try (destruct again; lia); try (destruct (f_hk st); lia); cbn [hk_run].
    + exists st, S. conjs; auto using grow_refl.
    + destruct (hi_pc _ _ _ _ H O HAbort eq_refl).
  - assert (Hnab : pc <> HAbort).
    { intros ->. destruct (hi_pc _ _ _ _ H O HAbort eq_refl). }
    destruct (hk_step_inv sort_size L st [pc] 0 pc S I H Hsm Hss Hmod eq_refl) as (S1 & H1 & Hi1).
    assert (Hs1 := solo_step sort_size _ _ _ _ Hsolo).
    destruct (crit pc || match pc with HHold => true | _ => false end) eqn:Ec.
    + assert (Hc : crit pc = true \/ pc = HHold) by (destruct pc; simpl in Ec; auto; discriminate).
      assert (Hd := hk_mu_dec sort_size st pc Hss Hc).
      destruct (hk_step sort_size st pc) as [st1 pc1] eqn:E1. cbn [fst snd set_nth] in *.
      destruct (IH st1 pc1 S1 I H1 Hs1 ltac:(lia)) as (st2 & S2 & R2 & H2 & Hs2 & Hi2).
      exists st2, S2. conjs; auto; [|eapply grow_trans; eauto].
      cbn [hk_run]. rewrite E1. destruct pc; try discriminate; auto.
    + assert (pc = HDone) as -> by (destruct pc; simpl in Ec; congruence).
      exists st, S. conjs; auto using grow_refl.
Qed.

Lemma resort_ok sort_size L st S I : hinv L (mkSys st []) S I -> small_hist L ->
  32 <= sort_size -> sort_size mod 32 = 0 -> f_hold st = false ->
  exists st' S', IDX_Resort sort_size st = Ok st' /\ hinv L (mkSys st' []) S' I /\
    f_app st' = None /\ (f_hk st' = None \/ (f_app st = None /\ f_hk st' = f_hk st)) /\
    f_hold st' = false /\ grow S S'.
Proof.
  intros H Hsm Hss Hmod Hh.
  assert (H0 : hinv L (mkSys st [HHold]) S I) by (apply (hinv_start _ _ _ _ H)).
  destruct (solo_run sort_size L (f_app st) (f_hk st) Hsm Hss Hmod (hk_fuel st) st HHold S I H0)
    as (st' & S' & R & H' & (Q1 & Q2 & Q3) & Hi).
  - simpl. auto.
  - unfold hk_mu, hk_fuel. lia.
  - exists st', S'. unfold IDX_Resort. rewrite R. conjs; auto.
    assert (Hx := hinv_crash _ _ _ _ H'). cbn [y_fs] in Hx.
    replace (unhold st') with st' in Hx; auto. clear - Q3. unfold unhold. destruct st' as [xa xb xc xd xe]; cbn [f_hold f_sorted f_app f_hk f_ino] in *; congruence.
Qed.

Lemma hk_fuel_3 st : exists n, hk_fuel st = S (S (S n)).
Proof. unfold hk_fuel. eexists. reflexivity. Qed.

Lemma resort_held sort_size st : f_hold st = true -> IDX_Resort sort_size st = Ok st.
Proof.
  intros H. unfold IDX_Resort. destruct (hk_fuel_3 st) as [n ->].
  cbn [hk_run hk_step]. rewrite H. reflexivity.
Qed.

(* no appendix: nothing happens *)
Lemma resort_noapp sort_size st : f_app st = None -> f_hold st = false -> IDX_Resort sort_size st = Ok st.
Proof.
  intros H H0. unfold IDX_Resort. destruct (hk_fuel_3 st) as [n ->].
  cbn [hk_run hk_step]. rewrite H0. cbn [f_app]. rewrite H. cbn [f_hk f_sorted f_ino f_app f_hold].
  destruct n; destruct st as [xa xb xc xd xe]; cbn [f_app f_hold f_hk f_sorted f_ino] in *; subst; reflexivity.
Qed.

(** * Sequential histories *)
Lemma run_ops_inv id_size sort_size : ok_conf id_size sort_size -> forall ops L st S I,
  hinv L (mkSys st []) S I -> f_hold st = false -> f_hk st = None ->
  len L + len (ideal_ops ops) < 2 ^ 38 -> Forall ok_op ops ->
  exists st' L' S' I', run_ops id_size sort_size st ops = Ok st' /\ hinv L' (mkSys st' []) S' I' /\
    f_hold st' = false /\ f_hk st' = None /\ ents L' = ents L ++ ideal_ops ops /\ grow S S'.
Proof.
  intros (Hc1 & Hc2 & Hc3). induction ops as [|o ops IH]; intros L st S I H Hh Hhk Hs Hops.
  - exists st, L, S, I. cbn [run_ops ideal_ops]. conjs; auto using grow_refl. rewrite app_nil_r; auto.
  - apply Forall_cons_iff in Hops. destruct Hops as [Ho Hops]. destruct o as [key flags silo offset cont|]; cbn [run_ops run_op ideal_ops] in *.
    + destruct (hinv_insert id_size L _ S I key flags silo offset cont H ltac:(lia) Ho)
        as (r & st1 & E & Er & I1 & H1 & _ & Hh1 & _ & Hk1 & _). cbn [y_fs y_pc] in *. rewrite E. cbn [bind].
      destruct (IH (L ++ [r]) st1 S I1 H1) as (st2 & L2 & S2 & I2 & E2 & H2 & Hh2 & Hk2 & EL2 & G2); auto; try congruence.
      { unfold len in *. simpl List.length in Hs. rewrite app_length. simpl List.length. lia. }
      exists st2, L2, S2, I2. conjs; auto.
      rewrite EL2. unfold ents. rewrite map_app, <- app_assoc. simpl. rewrite Er. auto.
    + destruct (resort_ok sort_size L st S I H) as (st1 & S1 & E & H1 & _ & Hk1 & Hh1 & G1); auto; try lia.
      { unfold small_hist. lia. }
      rewrite E. cbn [bind].
      destruct (IH L st1 S1 I H1) as (st2 & L2 & S2 & I2 & E2 & H2 & Hh2 & Hk2 & EL2 & G2); auto.
      { destruct Hk1 as [?|[_ ?]]; congruence. }
      exists st2, L2, S2, I2. conjs; auto. eapply grow_trans; eauto.
Qed.

Lemma run_ops_app id_size sort_size a : forall st b,
  run_ops id_size sort_size st (a ++ b) = let* st' := run_ops id_size sort_size st a in run_ops id_size sort_size st' b.
Proof.
  induction a as [|o a IH]; intros st b; simpl; auto.
  destruct (run_op id_size sort_size st o); simpl; auto.
Qed.

Lemma ideal_ops_app a b : ideal_ops (a ++ b) = ideal_ops a ++ ideal_ops b.
Proof. induction a as [|e a IH]; simpl; auto. destruct e; simpl; rewrite IH; auto. Qed.

(* without housekeeping the files keep the order of insertion *)
Lemma run_inserts id_size sort_size : ok_conf id_size sort_size -> forall ops L st I,
  hinv L (mkSys st []) [] I -> f_sorted st = None -> f_hk st = None -> orec I (f_app st) = L -> f_hold st = false ->
  Forall ok_op ops -> Forall (fun o => o <> OResort) ops ->
  exists st' L' I', run_ops id_size sort_size st ops = Ok st' /\ hinv L' (mkSys st' []) [] I' /\
    f_sorted st' = None /\ f_hk st' = None /\ orec I' (f_app st') = L' /\ f_hold st' = false /\
    ents L' = ents L ++ ideal_ops ops.
Proof.
  intros (Hc1 & Hc2 & Hc3). induction ops as [|o ops IH]; intros L st I H Es Eh Ea Hh Hops Hn.
  - exists st, L, I. cbn [run_ops ideal_ops]. conjs; auto. rewrite app_nil_r; auto.
  - apply Forall_cons_iff in Hops. destruct Hops as [Ho Hops]. apply Forall_cons_iff in Hn. destruct Hn as [Hno Hn].
    destruct o as [key flags silo offset cont|]; [|congruence]; cbn [run_ops run_op ideal_ops] in *.
    destruct (hinv_insert id_size L _ [] I key flags silo offset cont H ltac:(lia) Ho)
        as (r & st1 & E & Er & I1 & H1 & Ea1 & Hh1 & Es1 & Ehk1 & _). cbn [y_fs y_pc] in *. rewrite E. cbn [bind].
    destruct (IH (L ++ [r]) st1 I1 H1) as (st2 & L2 & I2 & E2 & H2 & Q1 & Q2 & Q3 & Q4 & EL2); auto; try congruence.
    exists st2, L2, I2. conjs; auto.
    rewrite EL2. unfold ents. rewrite map_app, <- app_assoc. simpl. rewrite Er. auto.
Qed.

(** * Entries and records *)
Lemma ent_inj r r' : is_rec r -> is_rec r' -> ent_of_rec r = ent_of_rec r' -> r = r'.
Proof.
  intros Hr Hr' E.
  assert (E1 : hexs (firstn 12 r) = hexs (firstn 12 r')).
  { rewrite <- !ent_key_hexs by auto. rewrite E. auto. }
  destruct Hr as [L B], Hr' as [L' B'].
  assert (Sl : forall a b x, length x = 32%nat -> (a + b <= 32)%nat -> length (slice a b x) = b).
  { intros a b x Hx Hab. unfold slice. rewrite firstn_length, skipn_length. lia. }
  assert (Sb : forall a b x, isbytes x -> isbytes (slice a b x)).
  { intros. unfold slice. apply isbytes_firstn, isbytes_skipn. auto. }
  apply hexs_inj in E1; try apply isbytes_firstn; auto; [|rewrite !firstn_length; lia].
  assert (E2 := f_equal e_flags E). assert (E3 := f_equal e_silo E).
  assert (E4 := f_equal e_off E). assert (E5 := f_equal e_cont E).
  unfold ent_of_rec in E2, E3, E4, E5. cbn [e_flags e_silo e_off e_cont] in E2, E3, E4, E5.
  apply be_dec_inj in E2; [|auto|auto|rewrite !Sl by lia; auto].
  apply be_dec_inj in E3; [|auto|auto|rewrite !Sl by lia; auto].
  apply be_dec_inj in E4; [|auto|auto|rewrite !Sl by lia; auto].
  rewrite !hexpad8 in E5 by (auto; apply Sl; lia).
  apply hexs_inj in E5; [|auto|auto|rewrite !Sl by lia; auto].
  assert (Dec : forall x, length x = 32%nat -> x = firstn 12 x ++ slice 12 4 x ++ slice 16 4 x ++ slice 20 8 x ++ slice 28 4 x).
  { clear. intros x Hx. unfold slice.
    assert (T : forall a b (l : bytes), firstn b (skipn a l) ++ skipn (a + b) l = skipn a l).
    { intros a b l. rewrite <- skipn_skipn'. apply firstn_skipn. }
    rewrite (firstn_all2 (skipn 28 x)) by (rewrite skipn_length, Hx; auto).
    rewrite (T 20 8 x : firstn 8 (skipn 20 x) ++ skipn 28 x = skipn 20 x)%nat.
    rewrite (T 16 4 x : firstn 4 (skipn 16 x) ++ skipn 20 x = skipn 16 x)%nat.
    rewrite (T 12 4 x : firstn 4 (skipn 12 x) ++ skipn 16 x = skipn 12 x)%nat.
    symmetry. apply firstn_skipn. }
  rewrite (Dec r L), (Dec r' L'). congruence.
Qed.

Definition ekle (a b : ixent) : Prop := lex (e_key a) (e_key b) <> Gt.

Lemma ents_sorted R : Forall is_rec R -> StronglySorted lexle R -> StronglySorted ekle (ents R).
Proof.
  intros HR H. induction H as [|r R H IH Hall]; simpl; constructor.
  - apply IH. apply Forall_cons_iff in HR. apply HR.
  - apply Forall_cons_iff in HR. destruct HR as [Hr HR].
    unfold ents; rewrite Forall_map, Forall_forall. intros x Hx. rewrite Forall_forall in HR, Hall.
    unfold ekle. rewrite !ent_key_hexs by auto.
    assert (Hx' := HR x Hx). destruct Hr as [L B], Hx' as [L' B'].
    rewrite hexs_lex by (try apply isbytes_firstn; auto; rewrite !firstn_length; lia).
    apply (lexle_firstn 12). apply Hall. auto.
Qed.

Lemma sorted_ok_sorted o R : sorted_ok o R -> StronglySorted lexle R.
Proof. intros [[_ ->]|(f & bb & nr & _ & W)]; [constructor|apply W]. Qed.

Lemma perm_sorted_eq l : forall m, StronglySorted lexle l -> StronglySorted lexle m -> Permutation l m -> l = m.
Proof.
  induction l as [|x l IH]; intros m Hl Hm P.
  - apply Permutation_nil in P. auto.
  - destruct m as [|y m]. { apply Permutation_sym, Permutation_nil in P. discriminate. }
    apply StronglySorted_inv in Hl. destruct Hl as [Hl Hx].
    apply StronglySorted_inv in Hm. destruct Hm as [Hm Hy].
    assert (x = y).
    { rewrite Forall_forall in Hx, Hy.
      assert (I1 : In x (y :: m)) by (eapply Permutation_in; [exact P|left; auto]).
      assert (I2 : In y (x :: l)) by (eapply Permutation_in; [apply Permutation_sym, P|left; auto]).
      destruct I1 as [->|I1]; auto. destruct I2 as [->|I2]; auto. apply lexle_antisym; auto. }
    subst y. f_equal. apply IH; auto. eapply Permutation_cons_inv; eauto.
Qed.

Lemma grow_same S S' : StronglySorted lexle S -> StronglySorted lexle S' -> grow S S' -> incl S' S -> S = S'.
Proof.
  intros H H' G Hi. apply perm_sorted_eq; auto. rewrite (Permutation_count_occ bytes_dec).
  intros r. change (cnt r S = cnt r S').
  destruct (in_dec bytes_dec r S) as [Hr|Hn]. { symmetry. auto. }
  assert (~ In r S') by auto. rewrite cnt_in in *. lia.
Qed.
