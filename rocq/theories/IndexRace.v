(* Proofs about the finer interleavings. *)
From Coq Require Import List NArith ZArith Bool Lia Sorting.Sorted Sorting.Permutation.
From Coq Require Import ZifyBool ZifyNat ZifyN.
From Verif Require Import Base BaseLemmas IndexModel IndexSpec IndexSysModel IndexSysSpec
  IndexRaceModel IndexRaceSpec IndexProofs IndexBucket IndexLookup IndexHk IndexHist.
Open Scope N_scope.

(** * Split inserts *)

Definition wr_ok (l : list (option pend)) : Prop :=
  Forall (fun o => match o with
                   | Some p => is_rec (p_rec p) /\ rec_off_ok (p_rec p) /\ ent_of_rec (p_rec p) = p_ent p
                   | None => True end) l.

Definition pending (l : list (option pend)) : N :=
  len (filter (fun o => match o with Some _ => true | None => false end) l).

Lemma pending_set_none k l p : nth_error l k = Some (Some p) -> pending (set_nth k None l) + 1 = pending l.
Proof.
  unfold pending, len. revert k; induction l as [|o l IH]; intros [|k] H; simpl in *; try discriminate.
  - injection H as ->. simpl. lia.
  - specialize (IH k H). destruct o; simpl List.length; lia.
Qed.

Lemma wr_ok_set k l : wr_ok l -> wr_ok (set_nth k None l).
Proof.
  unfold wr_ok. revert k; induction l as [|o l IH]; intros [|k] H; simpl; auto;
    apply Forall_cons_iff in H; destruct H; constructor; auto.
Qed.

Lemma rsys_run_inv id_size sort_size : ok_conf id_size sort_size -> forall evs L z S I,
  hinv L (z_sys z) S I -> wr_ok (z_wr z) -> z_done z = ents L ->
  len L + pending (z_wr z) + rinserts evs < 2 ^ 38 -> Forall ok_rev evs ->
  timely id_size sort_size z evs ->
  exists z' L' S' I', rsys_run id_size sort_size z evs = Ok z' /\ hinv L' (z_sys z') S' I' /\
    z_done z' = ents L'.
Proof.
  intros Hc. assert (Hc' := Hc). destruct Hc' as (Hc1 & Hc2 & Hc3).
  induction evs as [|e evs IH]; intros L z S I H Hw Hd Hs Hev Ht.
  - exists z, L, S, I. auto.
  - apply Forall_cons_iff in Hev. destruct Hev as [He Hev]. cbn [timely] in Ht. destruct Ht as [Ht1 Ht2].
    cbn [rsys_run].
    assert (Step : exists z1 L1 S1 I1, rsys_step id_size sort_size z e = Ok z1 /\ hinv L1 (z_sys z1) S1 I1 /\
       wr_ok (z_wr z1) /\ z_done z1 = ents L1 /\ len L1 + pending (z_wr z1) + rinserts evs < 2 ^ 38).
    { destruct e as [e|key flags silo offset cont|k]; cbn [rsys_step].
      - destruct (sys_step_inv id_size sort_size L (z_sys z) S I e H) as (y1 & L1 & S1 & I1 & E1 & H1 & EL1 & _); auto.
        { unfold small_hist. lia. }
        rewrite E1. cbn [bind]. eexists _, L1, S1, I1. split; [reflexivity|]. cbn [z_sys z_wr z_done].
        assert (Ll : len L1 = len L + len (ideal_evs [e])).
        { unfold ents in EL1. apply (f_equal (@length _)) in EL1. rewrite app_length, !map_length in EL1. unfold len. lia. }
        conjs; auto.
        + destruct e; auto. constructor.
        + rewrite EL1, Hd. destruct e; simpl; rewrite ?app_nil_r; auto.
        + rewrite Ll. destruct e; cbn [ideal_evs rinserts] in *; unfold len in *; simpl List.length in *; try lia.
          unfold pending at 1, len. simpl. lia.
      - replace (16 <=? id_size) with true by (symmetry; apply N.leb_le; lia). cbn [guard bind].
        destruct He as (Hk & Hfl & Hsi & Hof & Hco).
        destruct (idx_record_ok key flags silo offset cont Hk Hfl Hsi Hof Hco) as (r & E & Hr & Hro & Her).
        rewrite E. cbn [bind].
        destruct z as [[st pcs] wr dn]. cbn [z_sys z_wr z_done y_fs y_pc] in *.
        destruct (hinv_open L st pcs S I H) as (I1 & H1 & _).
        destruct (open_append st) as [st1 a]. cbn [fst] in H1.
        eexists _, L, S, I1. split; [reflexivity|]. cbn [z_sys z_wr z_done]. conjs; auto.
        + unfold wr_ok. apply Forall_app. split; auto; constructor; simpl; auto.
        + cbn [rinserts] in Hs. unfold pending, len in *. rewrite filter_app, app_length. simpl. lia.
      - destruct (nth_error (z_wr z) k) as [[p|]|] eqn:Ek.
        + destruct z as [[st pcs] wr dn]. cbn [z_sys z_wr z_done y_fs y_pc] in *.
          assert (Hp : is_rec (p_rec p) /\ rec_off_ok (p_rec p) /\ ent_of_rec (p_rec p) = p_ent p).
          { unfold wr_ok in Hw. rewrite Forall_forall in Hw. apply (Hw (Some p)). eapply nth_error_In; eauto. }
          destruct Hp as (Hp1 & Hp2 & Hp3).
          destruct (hinv_write L st pcs S I (p_ino p) (p_rec p) H (Ht1 p eq_refl) Hp1 Hp2) as (I1 & H1 & _).
          eexists _, (L ++ [p_rec p]), S, I1. split; [reflexivity|]. cbn [z_sys z_wr z_done]. conjs; auto.
          * apply wr_ok_set; auto.
          * unfold ents. rewrite map_app. simpl. rewrite Hp3, Hd. auto.
          * apply pending_set_none in Ek. cbn [rinserts] in Hs. unfold len in *. rewrite app_length. simpl List.length. lia.
        + exists z, L, S, I. cbn [rinserts] in Hs. auto.
        + exists z, L, S, I. cbn [rinserts] in Hs. auto. }
    destruct Step as (z1 & L1 & S1 & I1 & E1 & H1 & W1 & D1 & N1).
    rewrite E1 in *. cbn [bind]. apply (IH L1 z1 S1 I1); auto.
Qed.

(** * Lookups during housekeeping *)

Lemma quiet_step id_size sort_size L y S I e y' :
  hinv L y S I -> ok_conf id_size sort_size -> ok_ev e ->
  sys_step id_size sort_size y e = Ok y' ->
  match e with EStep k => forall a, nth_error (y_pc y) k <> Some (HUnlinkHk a) | _ => True end ->
  (forall h, f_hk (y_fs y) = Some h -> f_hk (y_fs y') = Some h) /\
  (forall i, f_app (y_fs y) = Some i -> f_app (y_fs y') = Some i \/ f_hk (y_fs y') = Some i).
Proof.
  intros H (Hc1 & Hc2 & Hc3) Hok E Hq. destruct e as [key flags silo offset cont| |k|]; cbn [sys_step] in E.
  - destruct (hinv_insert id_size L y S I key flags silo offset cont H ltac:(lia) Hok)
      as (r & st & E1 & _ & I1 & _ & _ & _ & _ & Eh & _ & Ea & _). rewrite E1 in E. cbn [bind] in E.
    injection E as <-. cbn [y_fs]. split; intros; [congruence|]. auto.
  - injection E as <-. auto.
  - destruct (nth_error (y_pc y) k) as [pc|] eqn:Ek; [|injection E as <-; auto].
    assert (Hp := hi_pc _ _ _ _ H k pc Ek).
    destruct (hk_step sort_size (y_fs y) pc) as [st' pc'] eqn:Es. injection E as <-. cbn [y_fs].
    destruct pc; cbn [hk_step] in Es.
    + destruct (f_hold (y_fs y)); injection Es as <- _; auto.
    + destruct (f_app (y_fs y)) eqn:Ea; [destruct (f_hk (y_fs y)) eqn:Eh|]; injection Es as <- _;
        cbn [f_app f_hk]; rewrite ?Ea, ?Eh; split; intros; auto; discriminate.
    + destruct Hp as (i & Ea & Eh). rewrite Ea in Es. injection Es as <- _. cbn [f_app f_hk].
      split; auto. intros i0 Hi. right. congruence.
    + destruct (f_hk (y_fs y)) eqn:Eh; injection Es as <- _; rewrite ?Eh; auto.
    + destruct (Nat.eqb _ 0). { injection Es as <- _; auto. }
      destruct (negb _); injection Es as <- _; auto.
    + destruct (idx_merge _ _); injection Es as <- _; auto.
    + injection Es as <- _. auto.
    + exfalso. eapply Hq; eauto.
    + injection Es as <- _; auto.
    + injection Es as <- _; auto.
    + injection Es as <- _; auto.
  - injection E as <-. auto.
Qed.

Lemma quiet_run id_size sort_size : ok_conf id_size sort_size -> forall evs L y S I,
  hinv L y S I -> len L + len (ideal_evs evs) < 2 ^ 38 -> Forall ok_ev evs ->
  no_unlink id_size sort_size y evs ->
  exists y' L' S' I', sys_run id_size sort_size y evs = Ok y' /\ hinv L' y' S' I' /\
    len L' = len L + len (ideal_evs evs) /\
    (forall i, incl (nth i I []) (nth i I' [])) /\
    (forall h, f_hk (y_fs y) = Some h -> f_hk (y_fs y') = Some h) /\
    (forall i, f_app (y_fs y) = Some i -> f_app (y_fs y') = Some i \/ f_hk (y_fs y') = Some i).
Proof.
  intros Hc. induction evs as [|e evs IH]; intros L y S I H Hs Hev Hq.
  - exists y, L, S, I. cbn [sys_run]. conjs; auto using incl_refl. unfold len; simpl; lia.
  - apply Forall_cons_iff in Hev. destruct Hev as [He Hev]. cbn [no_unlink] in Hq. destruct Hq as [Hq1 Hq2].
    change (e :: evs) with ([e] ++ evs) in Hs. rewrite ideal_evs_app in Hs. unfold len in Hs. rewrite app_length in Hs.
    destruct (sys_step_inv id_size sort_size L y S I e H) as (y1 & L1 & S1 & I1 & E1 & H1 & EL1 & _ & Hi1); auto.
    { unfold small_hist, len. lia. }
    assert (Ll : length L1 = (length L + length (ideal_evs [e]))%nat).
    { unfold ents in EL1. apply (f_equal (@length _)) in EL1. rewrite app_length, !map_length in EL1. auto. }
    destruct (quiet_step _ _ _ _ _ _ _ _ H Hc He E1 Hq1) as [Q1 Q2].
    rewrite E1 in Hq2.
    destruct (IH L1 y1 S1 I1 H1) as (y2 & L2 & S2 & I2 & E2 & H2 & N2 & Hi2 & Q3 & Q4); auto.
    { unfold len. lia. }
    exists y2, L2, S2, I2. cbn [sys_run]. rewrite E1. cbn [bind]. conjs; auto.
    + change (e :: evs) with ([e] ++ evs). rewrite ideal_evs_app. unfold len in *. rewrite app_length. lia.
    + intros i. eapply incl_tran; eauto.
    + intros i Hi. destruct (Q2 i Hi) as [Hx|Hx]; auto.
Qed.

Lemma seen_idx_ok L0 y0 S0 I0 L1 y1 S1 I1 L2 y2 S2 I2 :
  hinv L0 y0 S0 I0 -> hinv L1 y1 S1 I1 -> hinv L2 y2 S2 I2 ->
  idx_ok (seen (y_fs y0) (y_fs y1) (y_fs y2)) S0 (orec I1 (f_app (y_fs y1))) (orec I2 (f_hk (y_fs y2))).
Proof.
  intros H0 H1 H2.
  assert (K0 := hinv_idx_ok _ _ _ _ H0). assert (K1 := hinv_idx_ok _ _ _ _ H1). assert (K2 := hinv_idx_ok _ _ _ _ H2).
  destruct K0 as [A0 B0 C0 D0 E0], K1 as [A1 B1 C1 D1 E1], K2 as [A2 B2 C2 D2 E2].
  constructor.
  - exact A0.
  - unfold app_data in *. unfold seen. cbn [f_app]. unfold app_data.
    destruct (f_app (y_fs y1)); simpl in *; auto.
  - unfold hk_data in *. unfold seen. cbn [f_hk]. unfold hk_data.
    destruct (f_hk (y_fs y2)); simpl in *; auto.
  - rewrite !Forall_app in *. intuition.
  - rewrite !Forall_app in *. intuition.
Qed.

Lemma lookup3_quiet id_size sort_size L y0 S I evs1 evs2 :
  ok_conf id_size sort_size -> hinv L y0 S I ->
  len L + len (ideal_evs (evs1 ++ evs2)) < 2 ^ 38 -> Forall ok_ev (evs1 ++ evs2) ->
  no_unlink id_size sort_size y0 (evs1 ++ evs2) ->
  exists y1 y2 l0 l, sys_run id_size sort_size y0 evs1 = Ok y1 /\ sys_run id_size sort_size y1 evs2 = Ok y2 /\
    lookup (y_fs y0) None = Ok l0 /\
    lookup3 (y_fs y0) (y_fs y1) (y_fs y2) None = Ok l /\ incl l0 l.
Proof.
  intros Hc H Hn Hok Hq. rewrite ideal_evs_app in Hn. unfold len in Hn. rewrite app_length in Hn.
  apply Forall_app in Hok. destruct Hok as [Ho1 Ho2].
  assert (Q : no_unlink id_size sort_size y0 evs1 /\
     forall y1, sys_run id_size sort_size y0 evs1 = Ok y1 -> no_unlink id_size sort_size y1 evs2).
  { clear - Hq. revert y0 Hq. induction evs1 as [|e evs1 IH]; intros y0 Hq; cbn [app] in Hq.
    - split; [constructor|]. cbn [sys_run]. intros y1 [= <-]. auto.
    - cbn [no_unlink] in Hq. destruct Hq as [A B]. cbn [no_unlink sys_run].
      destruct (sys_step id_size sort_size y0 e) eqn:E; cbn [bind].
      + destruct (IH _ B) as [C D]. split; auto.
      + split; auto; discriminate.
      + split; auto; discriminate.
      + split; auto; discriminate. }
  destruct Q as [Q1 Q2].
  destruct (quiet_run id_size sort_size Hc evs1 L y0 S I H) as (y1 & L1 & S1 & I1 & E1 & H1 & N1 & G1 & K1 & M1); auto.
  { unfold len. lia. }
  destruct (quiet_run id_size sort_size Hc evs2 L1 y1 S1 I1 H1) as (y2 & L2 & S2 & I2 & E2 & H2 & N2 & G2 & K2 & M2); auto.
  { unfold len in *. lia. }
  assert (E3 : lookup3 (y_fs y0) (y_fs y1) (y_fs y2) None =
    Ok (ents (S ++ orec I1 (f_app (y_fs y1)) ++ orec I2 (f_hk (y_fs y2))))).
  { unfold lookup3. rewrite (lookup_exact _ _ _ _ None (seen_idx_ok _ _ _ _ _ _ _ _ _ _ _ _ H H1 H2) Logic.I (seek_fine_null _ _)).
    cbn [askedb]. rewrite filter_true. reflexivity. }
  exists y1, y2. eexists _, _. conjs; [exact E1|exact E2|eapply lookup_all; eauto|exact E3|].
  - intros e He. unfold ents in *. rewrite in_map_iff in *. destruct He as (r & <- & Hr). exists r. split; auto.
    rewrite !in_app_iff in *. destruct Hr as [Hr|[Hr|Hr]]; auto.
    + destruct (f_app (y_fs y0)) as [i|] eqn:Ea; simpl in Hr; [|contradiction].
      destruct (M1 i eq_refl) as [Hx|Hx].
      * right; left. rewrite Hx. simpl. apply G1. auto.
      * right; right. rewrite (K2 _ Hx). simpl. apply G2, G1. auto.
    + destruct (f_hk (y_fs y0)) as [i|] eqn:Ea; simpl in Hr; [|contradiction].
      right; right. rewrite (K2 _ (K1 _ eq_refl)). simpl. apply G2, G1. auto.
Qed.
