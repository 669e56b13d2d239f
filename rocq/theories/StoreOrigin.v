(* Where index entries come from: what the commands which inserted them have
   stored, and what get makes of it when all commands have come to their end. *)
From Coq Require Import String Permutation.
From Coq Require Import ZifyBool ZifyNat ZifyN.
From Verif Require Import Base BaseLemmas ListLemmas IndexModel IndexSpec IndexProofs IndexMain HeaderModel HeaderSpec HeaderProofs
  InflateSpec InflateProofs GzipModel GzipSpec GzipProofs ProgModel StoreModel StoreSpec StoreSysModel StoreWp StoreSys StoreHdr
  StoreWrite StoreCommit StoreJob StoreMain StoreGet StoreMk StoreWorld StoreCalls StoreAgain.
Open Scope string_scope.
Open Scope list_scope.
Open Scope N_scope.

Section Origin.
Variable C : conf.
Variable L : zlib.
Hypothesis CO : conf_ok C.
Hypothesis ZO : zlib_ok L.
Notation prefix := (c_prefix C).
Notation post := (post C L).
Notation winvo := (winvo C L post).
Notation wpw := (wp (inv C L) (fun _ => True)).

Definition made (j : job) (x : option bytes * list ixent) (o : list N) (s : fs) : Prop :=
  match j with
  | JStore r => exists b, fst x = Some b /\ inserted C L r (b, snd x) s
  | JGet _ _ => snd x = []
  | JMk _ => Forall (fun e => ~ first_ent e /\ flag (e_flags e) IDX_F_SEGMENTED = false) (snd x)
  end.

Lemma made_rely j x o own s s' : rely own s s' -> made j x o s -> made j x o s'.
Proof.
  intros R. destruct j as [r| |]; cbn [made]; auto. intros (b & E & [H|(id & p & rest & H1 & H2 & H0 & H3 & H4)]); exists b; split; auto; [left; auto|].
  right. exists id, p, rest. split; [auto|]. split; [auto|]. split; [auto|]. split; [|auto]. eapply stored_rely; eauto.
Qed.

Lemma made_stable j own s s' p : wpw (made j) own s p -> rely own s s' -> wpw (made j) own s' p.
Proof.
  intros W R. destruct p as [x|d|c k]; cbn [wp] in *; auto; [eapply made_rely; eauto|].
  intros s1 R1 I. apply W; auto. eapply rely_trans; eauto.
Qed.

Lemma made_job j s : job_ok j -> wpw (made j) [] s (tr [] (job_prog C L j)).
Proof.
  intros J. destruct j as [r|z id|n]; cbn [job_prog made].
  - apply tr_bind. eapply wp_conseq; [|apply main_store_tr; auto]. cbn beta. intros [a l] o s' (_ & _ & H). cbn [fst snd tr wp] in *. exists a. split; [reflexivity|exact H].
  - eapply wp_conseq; [|eapply tr_none; [apply (main_get_ok C L (fun _ => True) I I I)|eapply ac_weak; [exact ro_harmless|apply main_get_ro]]].
    cbn beta. intros x o s' (_ & H). exact H.
  - apply tr_bind. eapply wp_conseq; [|eapply tr_all; [apply (main_mksilo_ok C L CO ZO (fun _ => True) I I I s n J)|apply main_mksilo_ins|constructor]].
    cbn beta. intros [a l] o s' (_ & H). exact H.
Qed.

Lemma lstep_idx x l y e : lstep C L x l y -> In e (f_idx (wo_fs y)) ->
  In e (f_idx (wo_fs x)) \/ exists ev, l = Some ev /\ In e (ins_of (ev_call ev)).
Proof.
  intros S H. destruct S as [s ps1 ps2 j c k|s ps1 ps2 j c k|s s' ps1 ps2 j c k T|s ps j J|s ps d Dt|s ps l Pm|s ps n b w FH FS]; cbn [wo_fs] in *; auto.
  - destruct c; cbn [exec fst] in H; auto;
      repeat match type of H with context [match ?t with _ => _ end] => destruct t; cbn [fst] in H end; auto.
    cbn [f_idx] in H. apply in_app_iff in H. destruct H as [H|H]; auto. right. eexists. split; [reflexivity|]. exact H.
  - destruct T; cbn [exec fst] in H; auto; repeat match type of H with context [match ?t with _ => _ end] => destruct t; cbn [fst] in H end; auto.
  - left. eapply Permutation_in; eauto.
Qed.

Definition oinv (x : world) : Prop := exists owns (ls : nat -> list ixent), winvo owns x /\
  (forall i j p, nth_error (wo_procs x) i = Some (j, p) -> wpw (made j) (nth i owns []) (wo_fs x) (tr (ls i) p)) /\
  (forall i, nth_error (wo_procs x) i = None -> ls i = []) /\
  (forall e, In e (f_idx (wo_fs x)) -> exists i, In e (ls i)).

Lemma oinv_step x l y : reach C L x -> oinv x -> lstep C L x l y -> oinv y.
Proof.
  intros RX (owns & ls & W & HP & HN & HE) S.
  pose proof (reach_inv C L CO ZO x RX) as IV.
  destruct (winvo_step C L CO ZO _ _ _ _ IV W S) as (_ & owns' & W' & OS).
  exists owns', (fun i => match l with Some ev => if Nat.eqb (ev_proc ev) i then ls i ++ ins_of (ev_call ev) else ls i | None => ls i end).
  assert (LE : forall ev, l = Some ev -> exists j p, nth_error (wo_procs x) (ev_proc ev) = Some (j, p)).
  { intros ev ->. inversion S; subst; cbn [wo_procs ev_proc]; rewrite nth_error_app2, Nat.sub_diag by auto; cbn [nth_error]; eauto. }
  split; [auto|]. split; [|split].
  - intros i j p N2.
    destruct (nth_error (wo_procs x) i) as [[j1 p1]|] eqn:N1.
    + specialize (HP i j1 p1 N1).
      destruct (proc_step C L _ _ _ _ _ _ S N1) as [(N3 & NE)|[(c & k & -> & -> & ES & N3)|(N3 & c & k & -> & NE)]].
      * assert (j1 = j /\ p1 = p) as (<- & <-) by (split; congruence).
        assert (EL : (match l with Some ev => if Nat.eqb (ev_proc ev) i then ls i ++ ins_of (ev_call ev) else ls i | None => ls i end) = ls i).
        { destruct l as [ev|]; auto. specialize (NE ev eq_refl). apply Nat.eqb_neq in NE. rewrite NE. auto. }
        rewrite EL. pose proof (others_rely C L CO ZO _ _ _ _ i IV W S NE) as RL.
        assert (EQ : nth i owns' [] = nth i owns [] \/ p1 = Die DKill).
        { destruct l as [e|].
          - left. destruct OS as (l1 & own & l2 & E1 & E2 & _ & own' & E3 & _). specialize (NE e eq_refl).
            rewrite E3, (nth_mid _ _ own'), E1, (nth_mid _ _ own). destruct (Nat.eq_dec i (List.length l1)); [congruence|auto].
          - destruct (OS i) as [E|(_ & j' & K)]; [auto|]. right. congruence. }
        destruct EQ as [-> | ->]; [|exact I]. eapply made_stable; [exact HP|exact RL].
      * assert (j1 = j /\ k (snd (exec c (wo_fs x))) = p) as (<- & <-) by (split; congruence).
        cbn [ev_proc ev_call]. rewrite Nat.eqb_refl.
        destruct OS as (l1 & own & l2 & E1 & E2 & LG & own' & E3 & X). cbn [ev_proc ev_call] in *.
        assert (EO : nth i owns [] = own) by (rewrite E1, <- E2; apply nth_middle). rewrite EO in HP.
        assert (EO' : nth i owns' [] = own') by (rewrite E3, <- E2; apply nth_middle). rewrite EO'.
        cbn [tr wp] in HP. destruct (HP (wo_fs x) (rely_refl _ _) IV) as (_ & _ & _ & HP'). rewrite ES.
        destruct X as [(-> & _)|(-> & (j' & K) & _)]; [exact HP'|].
        assert (EK : k (snd (exec c (wo_fs x))) = Die DKill) by congruence. rewrite EK. exact I.
      * assert (p = Die DKill) as -> by congruence. exact I.
    + assert (EL : (match l with Some ev => if Nat.eqb (ev_proc ev) i then ls i ++ ins_of (ev_call ev) else ls i | None => ls i end) = []).
      { rewrite (HN i N1). destruct l as [ev|]; auto. destruct (Nat.eqb (ev_proc ev) i) eqn:X; auto. apply Nat.eqb_eq in X. subst i.
        destruct (LE ev eq_refl) as (j1 & p1 & E). congruence. }
      rewrite EL. assert (SP : l = None /\ job_ok j /\ p = job_prog C L j /\ owns' = owns' /\ i = List.length (wo_procs x)).
      { clear - S N1 N2. destruct S; cbn [wo_procs] in *;
          try (exfalso; apply nth_error_None in N1; assert (X : (i < List.length (ps1 ++ (j0, Call c k) :: ps2))%nat); 
               [apply nth_error_Some; rewrite app_length in *; intros Y; apply nth_error_None in Y; rewrite app_length in Y; cbn [List.length] in *; 
                apply (f_equal (fun o => match o with Some _ => true | None => false end)) in N2; 
                rewrite (proj2 (nth_error_None _ _)) in N2; [discriminate|rewrite app_length; cbn [List.length]; lia]|lia]);
          try (rewrite N1 in N2; discriminate).
        apply nth_error_None in N1. rewrite nth_error_app2 in N2 by auto. destruct (i - List.length ps)%nat eqn:Z; cbn [nth_error] in N2.
        - injection N2 as <- <-. split; [auto|]. split; [auto|]. split; [auto|]. split; [auto|]. lia.
        - destruct n; discriminate. }
      destruct SP as (-> & J & -> & _ & ->).
      assert (EO : nth (List.length (wo_procs x)) owns' [] = []).
      { destruct (OS (List.length (wo_procs x))) as [->|(-> & _)]; [|auto]. apply nth_overflow. destruct W as (HF & _).
        clear - HF. induction HF; cbn [List.length]; lia. }
      rewrite EO. apply made_job. auto.
  - intros i N2. assert (N1 : nth_error (wo_procs x) i = None).
    { apply nth_error_None. apply nth_error_None in N2. clear - S N2. destruct S; cbn [wo_procs] in *; rewrite ?app_length in *; cbn [List.length] in *; lia. }
    rewrite (HN i N1). destruct l as [ev|]; auto. destruct (Nat.eqb (ev_proc ev) i) eqn:X; auto. apply Nat.eqb_eq in X. subst i.
    destruct (LE ev eq_refl) as (j1 & p1 & E). congruence.
  - intros e He. destruct (lstep_idx _ _ _ _ S He) as [H|(ev & -> & H)].
    + destruct (HE e H) as (i & Hi). exists i. destruct l as [ev|]; auto. destruct (Nat.eqb (ev_proc ev) i); auto. apply in_or_app. auto.
    + exists (ev_proc ev). rewrite Nat.eqb_refl. apply in_or_app. auto.
Qed.

Lemma reach_oinv x : reach C L x -> oinv x.
Proof.
  intros (s & E & S). assert (G : forall y, steps C L (mkWorld s []) y -> reach C L y /\ oinv y).
  { intros y H. remember (mkWorld s []) as x0. induction H as [a|a b c H IH ST]; subst.
    - split; [exists s; split; [auto|constructor]|]. destruct (reach_winv C L CO ZO (mkWorld s [])) as (_ & owns & W); [exists s; split; [auto|constructor]|].
      exists owns, (fun _ => []). split; [auto|]. split; [|split]; auto.
      + intros [|i] j p X; discriminate.
      + destruct E as (_ & _ & E & _). cbn [wo_fs]. rewrite E. intros e [].
    - destruct (IH eq_refl S) as (R & O). split; [|destruct ST as [l ST]; eapply oinv_step; eauto].
      destruct R as (s0 & E0 & S0). exists s0. split; [auto|]. apply (steps_step C L _ b); auto. }
  apply G. auto.
Qed.

(* An entry which is not for a later segment is under the identifier of something
   completely stored, unless the command which made it is not at its end. *)
Lemma origin x e : reach C L x -> In e (f_idx (wo_fs x)) -> first_ent e ->
  (exists r id p rest, In (JStore r, Ret (Some (prefix ++ id))) (wo_procs x) /\ req_id C (z_sha L) r id /\
     stored_as C L (wo_fs x) (req_type r) id (List.concat (r_data r)) (p :: rest) /\ e_key e = pad 24 id /\ described C r p) \/
  (exists j p, In (j, p) (wo_procs x) /\ forall a, p <> Ret a).
Proof.
  intros R He F. destruct (reach_oinv x R) as (owns & ls & W & HP & HN & HE). destruct (HE e He) as (i & Hi).
  destruct (nth_error (wo_procs x) i) as [[j p]|] eqn:N1; [|rewrite (HN i N1) in Hi; destruct Hi].
  pose proof (nth_error_In _ _ N1) as IN. specialize (HP i j p N1).
  destruct p as [a|d|c k]; [|right; exists j, (Die d); split; [auto|discriminate]|right; exists j, (Call c k); split; [auto|discriminate]].
  cbn [tr wp made] in HP. destruct j as [r|z id|n]; cbn [made fst snd] in HP.
  - destruct HP as (b & -> & [E|(id & p & rest & E1 & E2 & _ & E3 & E4 & E5)]); cbn [fst snd] in *; [rewrite E in Hi; destruct Hi|].
    left. exists r, id, p, rest. subst b. split; [auto|]. split; [auto|]. split; [auto|]. rewrite Forall_forall in E4. split; [apply (proj1 (E4 e Hi)); auto|auto].
  - rewrite HP in Hi. destruct Hi.
  - rewrite Forall_forall in HP. destruct (HP e Hi). tauto.
Qed.

(** * When identifiers are unambiguous *)

Lemma same_hdr s n o w n' o' w' e : in_archive C L s n o w e -> in_archive C L s n' o' w' e -> wr_hdr w = wr_hdr w'.
Proof.
  intros A B. destruct (at_entry C L CO _ _ _ _ _ A) as (b & a & H & B1 & z & wr & F & _ & _ & _ & R).
  destruct (at_entry C L CO _ _ _ _ _ B) as (b' & a' & H' & B1' & z' & wr' & F' & _ & _ & _ & R').
  assert (b' = b) by congruence. subst b'. congruence.
Qed.

Lemma sorted_in s n o w e : in_archive C L s n o w e -> hsorted (h_fields (wr_hdr w)).
Proof. intros A. destruct (at_entry C L CO _ _ _ _ _ A) as (b & a & H & B1 & z & wr & _ & _ & _ & S & _). exact S. Qed.

Lemma chain_parts s id data : forall ps k, chain C L s id data k ps -> forall i p, nth_error ps i = Some p -> part_ok C L s id data (k + N.of_nat i) p.
Proof.
  induction ps as [|p r IH]; intros k CH i q E; cbn [chain] in CH; [contradiction|]. destruct CH as (P & CH).
  destruct i as [|i]; cbn [nth_error] in E.
  - injection E as <-. rewrite N.add_0_r. auto.
  - destruct r as [|q' r]; [destruct i; discriminate|]. destruct CH as (_ & _ & CH). specialize (IH _ CH i q E).
    replace (k + N.of_nat (S i)) with (k + 1 + N.of_nat i) by lia. auto.
Qed.

Lemma type_flag_cases t : type_flag t = 2 \/ type_flag t = 4 \/ type_flag t = 8 \/ type_flag t = 0.
Proof. unfold type_flag. destruct (bytes_eqb _ _); [auto|]. destruct (bytes_eqb _ _); [auto|]. destruct (bytes_eqb _ _); auto. Qed.

Lemma next_flags s id data k p q r : chain C L s id data k (p :: q :: r) -> flag (e_flags (p_ent p)) IDX_F_SEGMENTED = true /\ flag (e_flags (p_ent p)) IDX_F_LASTSEG = false.
Proof.
  intros ((A & SN & _) & NT & _). pose proof (sorted_in _ _ _ _ _ A) as S. destruct A as (_ & (_ & _ & _ & F & _) & _).
  pose proof F as (t & T & _). pose proof (flags_val _ _ _ S T F) as E. rewrite has_get in SN by auto. apply hasnt_get in NT. rewrite SN, NT in E.
  pose proof (type_flag_cases t) as TF.
  rewrite E. destruct TF as [-> | [-> | [-> | ->]]]; destruct (bytes_eqb _ _); split; reflexivity.
Qed.

Lemma stored_first s typ id data p r : stored_as C L s typ id data (p :: r) -> in_archive C L s (p_silo p) (p_off p) (p_rec p) (p_ent p) /\ p_id p = id.
Proof.
  intros (_ & _ & H). destruct r as [|q r]; [destruct H as (A & B & _); auto|]. destruct H as ((A & _ & B) & _).
  change (1 =? 1) with true in B. cbv iota in B. destruct B as (B & _). auto.
Qed.

Lemma apart_clear s typ id data ps : inv C L s -> (forall n, f_hold s n = None) -> apart C s -> len id = c_idsize C ->
  stored_as C L s typ id data ps -> clear C L s id ps.
Proof.
  intros IV Q (AP1 & AP2) LI ST. destruct ps as [|p r]; [exact Logic.I|]. cbn [clear].
  destruct (stored_first _ _ _ _ _ _ ST) as (IA & PI). split.
  - intros e He Ha. destruct (entry_settled C L s e IV He (Q _)) as (w & A). exists (e_silo e), (e_off e), w. split; [auto|]. intros _.
    apply (AP1 id); auto; [apply IA|]. apply askedb_asked. apply (asked_self C id LI id); auto. destruct IA as (_ & (_ & _ & K & _) & _). rewrite K. f_equal. exact PI.
  - destruct ST as (_ & _ & CH). destruct r as [|q r]; [exact Logic.I|].
    assert (G : forall r q p k, 1 <= k -> chain C L s id data k (p :: q :: r) -> clear_rest C L s id p (q :: r)).
    { clear - CO AP2 LI. induction r as [|q' r IH]; intros q p k K CH; cbn [clear_rest].
      - pose proof CH as (PO & NT & EC & PQ & _). split; [|exact Logic.I]. destruct (next_flags _ _ _ _ _ _ _ CH) as (F1 & F2).
        intros e He Ha. pose proof PQ as (IQ & _ & TQ). replace (k + 1 =? 1) with false in TQ by lia. destruct TQ as (T1 & T2).
        assert (e = p_ent q) as ->.
        { apply (AP2 (p_ent p)); auto; [apply PO|apply IQ|]. apply askedb_asked. rewrite EC. apply (asked_cont C id LI). destruct IQ as (_ & (_ & _ & X & _) & _). exact X. }
        exists (p_silo q), (p_off q), (p_rec q), id. split; [auto|]. split; [auto|]. split; [auto|]. split; auto.
      - pose proof CH as (PO & NT & EC & CH'). pose proof CH' as (PQ & _). split; [|apply (IH q' q (k + 1)); [lia|auto]]. destruct (next_flags _ _ _ _ _ _ _ CH) as (F1 & F2).
        intros e He Ha. pose proof PQ as (IQ & _ & TQ). replace (k + 1 =? 1) with false in TQ by lia. destruct TQ as (T1 & T2).
        assert (e = p_ent q) as ->.
        { apply (AP2 (p_ent p)); auto; [apply PO|apply IQ|]. apply askedb_asked. rewrite EC. apply (asked_cont C id LI). destruct IQ as (_ & (_ & _ & X & _) & _). exact X. }
        exists (p_silo q), (p_off q), (p_rec q), id. split; [auto|]. split; [auto|]. split; [auto|]. split; auto. }
    apply (G r q p 1); [lia|auto].
Qed.

(* what comes later does not matter if it has other digits *)
Lemma clear_later s s' typ id data ps : rely [] s s' -> new_apart C s s' -> len id = c_idsize C ->
  stored_as C L s typ id data ps -> clear C L s id ps -> clear C L s' id ps.
Proof.
  intros R NA LI ST CL. assert (IAR : forall n o w e, in_archive C L s n o w e -> in_archive C L s' n o w e) by (intros; eapply in_archive_rely; eauto).
  destruct ps as [|p r]; [exact Logic.I|]. cbn [clear] in *. destruct CL as (CF & CR). destruct (stored_first _ _ _ _ _ _ ST) as (IA & PI). split.
  - intros e He Ha. destruct (NA e He) as [H|(H & _)].
    + destruct (CF e H Ha) as (n & o & w & X1 & X2). exists n, o, w. auto.
    + exfalso. apply (H id (p_ent p)); auto; [apply IA|]. apply askedb_asked. apply (asked_self C id LI id); auto.
      destruct IA as (_ & (_ & _ & X & _) & _). rewrite X. f_equal. exact PI.
  - destruct ST as (_ & _ & CH). destruct r as [|q r]; [exact Logic.I|].
    assert (G : forall r q p k, chain C L s id data k (p :: q :: r) -> clear_rest C L s id p (q :: r) -> clear_rest C L s' id p (q :: r)).
    { clear - CO NA IAR. induction r as [|q' r IH]; intros q p k CH (CN & CR); cbn [clear_rest]; (split; [|try exact Logic.I]);
        try (destruct (next_flags _ _ _ _ _ _ _ CH) as (F1 & F2); intros e He Ha; destruct (NA e He) as [H|(_ & H)];
             [destruct (CN e H Ha) as (n & o & w & oid & X1 & X2); exists n, o, w, oid; auto
             |exfalso; apply (H (p_ent p)); auto; destruct CH as ((IP & _) & _); apply IP]).
      pose proof CH as (_ & _ & _ & CH'). apply (IH q' q (k + 1)); auto. }
    apply (G r q p 1); auto.
Qed.

(* an object has no more segments than there are entries *)
Lemma parts_bound s typ id data ps : stored_as C L s typ id data ps -> (List.length ps <= List.length (f_idx s))%nat.
Proof.
  intros ST. destruct ps as [|p [|q r]]; [cbn; lia| |].
  - destruct (stored_first _ _ _ _ _ _ ST) as ((IA & _) & _). destruct (f_idx s); [destruct IA|cbn; lia].
  - destruct ST as (_ & _ & CH). pose proof (chain_parts _ _ _ _ _ CH) as CP. rewrite <- (map_length p_ent (p :: q :: r)).
    apply NoDup_incl_length.
    + apply NoDup_nth_error. intros i j Hi E. rewrite map_length in Hi. rewrite !nth_error_map in E.
      destruct (nth_error (p :: q :: r) i) as [a|] eqn:Ei; [|apply nth_error_None in Ei; lia]. cbn [option_map] in E.
      destruct (nth_error (p :: q :: r) j) as [b|] eqn:Ej; [|discriminate]. cbn [option_map] in E. injection E as E.
      destruct (CP i a Ei) as (A1 & N1 & _). destruct (CP j b Ej) as (A2 & N2 & _). rewrite <- E in A2.
      pose proof (sorted_in _ _ _ _ _ A1) as S. rewrite <- (same_hdr _ _ _ _ _ _ _ _ A1 A2) in N2. rewrite has_get in N1, N2 by auto.
      assert (X : dec (1 + N.of_nat i) = dec (1 + N.of_nat j)) by congruence. apply dec_inj in X. lia.
    + intros e He. apply in_map_iff in He. destruct He as (a & <- & Ha). apply In_nth_error in Ha. destruct Ha as (i & Hi).
      destruct (CP i a Hi) as ((A & _) & _). exact A.
Qed.

Lemma first_flags hd fl t : hsorted (h_fields hd) -> flags_for hd fl -> has hd "WARC-Type" t -> t <> str "warcinfo" ->
  (hasnt hd "WARC-Segment-Number" \/ has hd "WARC-Segment-Number" (str "1")) ->
  flag fl IDX_F_WARCINFO = false /\ flag fl IDX_F_SEGMENTED && negb (flag fl IDX_F_FIRSTSEG) = false.
Proof.
  intros S F T NW SN. pose proof (flags_val _ _ _ S T F) as E.
  assert (TF : type_flag t = 4 \/ type_flag t = 8 \/ type_flag t = 0).
  { destruct (type_flag_cases t) as [Y|Y]; [|tauto]. exfalso. apply NW. unfold type_flag in Y. destruct (bytes_eqb t (str "warcinfo")) eqn:X; [apply bytes_eqb_true in X; auto|].
    destruct (bytes_eqb t (str "resource")); [discriminate|]. destruct (bytes_eqb t (str "metadata")); discriminate. }
  destruct SN as [SN|SN].
  - apply hasnt_get in SN. rewrite SN in E. rewrite E. destruct TF as [-> | [-> | ->]]; split; reflexivity.
  - rewrite has_get in SN by auto. rewrite SN in E. rewrite E. change (bytes_eqb (str "1") (str "1")) with true. cbv iota.
    destruct TF as [-> | [-> | ->]]; destruct (hget hd "WARC-Segment-Total-Length"); split; reflexivity.
Qed.

Lemma req_type_cases r : req_type r = str "resource" \/ req_type r = str "metadata".
Proof. unfold req_type. destruct (r_meta r); auto. Qed.

(* Every command has come to its end: what store has said is stored is there. *)
Lemma stored_end x r b : reach C L x -> (forall j p, In (j, p) (wo_procs x) -> exists a, p = Ret a) -> apart C (wo_fs x) ->
  In (JStore r, Ret (Some b)) (wo_procs x) ->
  exists r' id id' ps, b = prefix ++ id /\ len id = c_idsize C /\ hexstr id /\ req_id C (z_sha L) r id /\
    In (JStore r', Ret (Some (prefix ++ id'))) (wo_procs x) /\ lower id' = lower id /\ len id' = c_idsize C /\
    stored_as C L (wo_fs x) (req_type r') id' (List.concat (r_data r')) ps /\ clear C L (wo_fs x) id' ps /\
    (List.length ps <= List.length (f_idx (wo_fs x)))%nat /\ match ps with p :: _ => described C r' p | [] => False end.
Proof.
  intros R AD AP HI. pose proof (all_done C L CO ZO x R AD) as Q. pose proof (reach_inv C L CO ZO x R) as IV.
  destruct (store_outcome C L CO ZO x r _ R HI) as (id & E & HX & LI & RI & OC). injection E as ->.
  destruct OC as [(p & rest & ST & DS)|PR].
  - exists r, id, id, (p :: rest). split; [auto|]. split; [auto|]. split; [auto|]. split; [auto|]. split; [auto|]. split; [auto|]. split; [auto|]. split; [auto|].
    split; [eapply apart_clear; eauto|split; [eapply parts_bound; eauto|exact DS]].
  - destruct (PR Q) as (w & n & o & e & IA & LW & NW & SN). pose proof (sorted_in _ _ _ _ _ IA) as S. pose proof IA as (He & (_ & _ & EK & EF & _) & _).
    pose proof EF as (t & T & _).
    assert (FE : first_ent e) by (apply (first_flags (wr_hdr w) (e_flags e) t); auto; intros ->; auto).
    destruct (origin x e R He FE) as [(r' & id' & p & rest & HI' & RI' & ST & EK' & DS)|(j & p & IN & NR)]; [|destruct (AD _ _ IN) as (a & ->); destruct (NR a eq_refl)].
    destruct (store_outcome C L CO ZO x r' _ R HI') as (id2 & E2 & HX' & LI' & _). injection E2 as E2. apply app_inv_head in E2. subst id2.
    destruct (stored_first _ _ _ _ _ _ ST) as (IP & PI).
    assert (EP : p_ent p = e).
    { apply (proj1 AP id'); [auto|apply IP|auto| |]; apply askedb_asked; apply (asked_self C id' LI' id'); auto.
      destruct IP as (_ & (_ & _ & X & _) & _). rewrite X. f_equal. exact PI. }
    rewrite EP in IP. assert (EI : id' = h_id (wr_hdr w)) by (rewrite (same_hdr _ _ _ _ _ _ _ _ IA IP); symmetry; exact PI).
    exists r', id, id', (p :: rest). split; [auto|]. split; [auto|]. split; [auto|]. split; [auto|]. split; [auto|]. split; [congruence|]. split; [auto|]. split; [auto|].
    split; [eapply apart_clear; eauto|split; [eapply parts_bound; eauto|exact DS]].
Qed.

(* what an unambiguous archive gives back *)
Section Ended.
Variables (x : world) (r : request) (b : bytes).
Hypothesis RX : reach C L x.
Hypothesis AD : forall j p, In (j, p) (wo_procs x) -> exists a, p = Ret a.
Hypothesis AP : apart C (wo_fs x).
Hypothesis HI : In (JStore r, Ret (Some b)) (wo_procs x).
Hypothesis SD : forall r' b', In (JStore r', Ret (Some b')) (wo_procs x) -> lower b' = lower b -> List.concat (r_data r') = List.concat (r_data r).
Hypothesis FU : (List.length (f_idx (wo_fs x)) <= c_fuel C)%nat.
Hypothesis KB : N.of_nat (List.length (f_idx (wo_fs x))) < 2 ^ 31 - 1.

Lemma lower_app u v : lower (u ++ v) = lower u ++ lower v.
Proof. apply map_app. Qed.

Lemma end_get arg nid : good_id prefix (c_idsize C) arg nid -> lower (prefix ++ nid) = lower b ->
  run (main_get C L false arg) (wo_fs x) = (wo_fs x, inl (Some (List.concat (r_data r)))).
Proof.
  intros GI LB. destruct (stored_end x r b RX AD AP HI) as (r' & id & id' & ps & -> & LI & _ & _ & HI' & LE & LI' & ST & CL & BD & _).
  rewrite <- (SD r' _ HI') by (rewrite !lower_app, LE; auto). rewrite !lower_app in LB. apply app_inv_head in LB.
  apply (get_alone C L CO (req_type r') id' _ ps (req_type_cases r') ltac:(lia) ltac:(lia) arg nid GI); auto; congruence.
Qed.

Lemma end_getz arg nid : good_id prefix (c_idsize C) arg nid -> lower (prefix ++ nid) = lower b ->
  c_max C < 2 ^ 32 -> comb_ok (z_comb L) -> len (List.concat (r_data r)) < 2 ^ 32 ->
  exists out, run (main_get C L true arg) (wo_fs x) = (wo_fs x, inl (Some out)) /\ gunzip out = Some (List.concat (r_data r), []).
Proof.
  intros GI LB MX CB LD. destruct (stored_end x r b RX AD AP HI) as (r' & id & id' & ps & -> & LI & _ & _ & HI' & LE & LI' & ST & CL & BD & _).
  rewrite <- (SD r' _ HI') in * by (rewrite !lower_app, LE; auto). rewrite !lower_app in LB. apply app_inv_head in LB.
  apply (getz_alone C L CO (req_type r') id' _ ps (req_type_cases r') ltac:(lia) ltac:(lia) arg nid GI ltac:(congruence)); auto.
  - intros n s w F. destruct (reach_inv C L CO ZO x RX) as ((_ & B & _) & _). apply B in F. lia.
  - apply Forall_forall. intros p Hp. destruct ST as ((E & _) & _). rewrite <- E in LD. clear - LD Hp.
    assert (X : In p ps) by (destruct ps; [destruct Hp|right; exact Hp]). clear Hp. apply in_split in X. destruct X as (l1 & l2 & ->).
    rewrite map_app, concat_app in LD. cbn [map concat] in LD. unfold len in *. rewrite !app_length in LD. lia.
Qed.

Lemma end_again r2 id2 : request_ok r2 -> req_id C (z_sha L) r2 id2 -> lower (prefix ++ id2) = lower b ->
  let (s', y) := run (main_store C L r2) (wo_fs x) in
  f_silo s' = f_silo (wo_fs x) /\ f_idx s' = f_idx (wo_fs x) /\
  match y with inl a => a = prefix ++ id2 /\ (forall n, f_hold s' n = None) | inr _ => True end.
Proof.
  clear SD. intros RO2 RI2 LB. destruct (stored_end x r b RX AD AP HI) as (r' & id & id' & ps & -> & LI & _ & _ & HI' & LE & LI' & ST & CL & BD & _).
  rewrite !lower_app in LB. apply app_inv_head in LB. pose proof (all_done C L CO ZO x RX AD) as Q.
  destruct (reach_inv C L CO ZO x RX) as (AO & DT).
  pose proof (again_alone C L CO ZO (req_type r') id' _ ps (req_type_cases r') ltac:(lia) ltac:(lia) r2 id2 RO2 RI2 ltac:(congruence) _ AO DT ST CL) as X.
  destruct (run (main_store C L r2) (wo_fs x)) as [s' y]. destruct X as (X1 & X2 & X3). split; [auto|]. split; [auto|]. destruct y; [|auto].
  destruct X3 as (-> & X3). split; [auto|]. intros n. rewrite X3. auto.
Qed.

(* whatever happens then, if it has other digits *)
Lemma end_get_later y arg nid : good_id prefix (c_idsize C) arg nid -> lower (prefix ++ nid) = lower b ->
  steps C L x y -> new_apart C (wo_fs x) (wo_fs y) ->
  run (main_get C L false arg) (wo_fs y) = (wo_fs y, inl (Some (List.concat (r_data r)))).
Proof.
  intros GI LB SY NA. destruct (stored_end x r b RX AD AP HI) as (r' & id & id' & ps & -> & LI & _ & _ & HI' & LE & LI' & ST & CL & BD & _).
  rewrite <- (SD r' _ HI') by (rewrite !lower_app, LE; auto). rewrite !lower_app in LB. apply app_inv_head in LB.
  pose proof (reach_grow C L CO ZO x y RX SY) as RG.
  apply (get_alone C L CO (req_type r') id' _ ps (req_type_cases r') ltac:(lia) ltac:(lia) arg nid GI); [congruence|eapply stored_rely; eauto|].
  eapply clear_later; eauto.
Qed.

Lemma trace_clear s0 typ id data ps x0 tr y : reach C L x0 -> wo_fs x0 = s0 -> len id = c_idsize C ->
  stored_as C L s0 typ id data ps -> clear C L s0 id ps ->
  trace C L (fun s => new_apart C s0 s) x0 tr y -> trace C L (fun s => clear C L s id ps) x0 tr y /\ steps C L x0 y.
Proof.
  intros R0 E0 LI ST CL T. 
  assert (G : forall z, steps C L x0 z -> new_apart C s0 (wo_fs z) -> clear C L (wo_fs z) id ps).
  { intros z SZ NA. pose proof (reach_grow C L CO ZO x0 z R0 SZ) as RG. rewrite E0 in RG. eapply clear_later; eauto. }
  induction T as [P|tr y e z T IH S P|tr y z T IH S P].
  - split; [|constructor]. constructor. apply G; [constructor|auto].
  - destruct IH as (T' & SY). assert (SZ : steps C L x0 z) by (apply (steps_step C L _ y); [auto|exists (Some e); auto]).
    split; [|auto]. eapply tr_call; eauto.
  - destruct IH as (T' & SY). assert (SZ : steps C L x0 z) by (apply (steps_step C L _ y); [auto|exists None; auto]).
    split; [|auto]. eapply tr_other; eauto.
Qed.

(* at the same time as other commands *)
Lemma end_get_among arg nid tr y : good_id prefix (c_idsize C) arg nid -> lower (prefix ++ nid) = lower b ->
  trace C L (fun s => new_apart C (wo_fs x) s) (mkWorld (wo_fs x) (wo_procs x ++ [(JGet false arg, main_get C L false arg)])) tr y ->
  (forall e, In e tr -> ev_proc e = List.length (wo_procs x) -> only_looks (ev_call e)) /\
  exists p, nth_error (wo_procs y) (List.length (wo_procs x)) = Some (JGet false arg, p) /\
    (forall a, p = Ret a -> a = Some (List.concat (r_data r))) /\ (forall d, p = Die d -> d = DKill).
Proof.
  intros GI LB T. destruct (stored_end x r b RX AD AP HI) as (r' & id & id' & ps & -> & LI & _ & _ & HI' & LE & LI' & ST & CL & BD & _).
  rewrite <- (SD r' _ HI') by (rewrite !lower_app, LE; auto). rewrite !lower_app in LB. apply app_inv_head in LB.
  assert (RX' : reach C L (mkWorld (wo_fs x) (wo_procs x))) by (destruct x; exact RX).
  destruct (fresh C L CO ZO (wo_fs x) (wo_procs x) (JGet false arg) RX' Logic.I) as (RG & _).
  destruct (trace_clear (wo_fs x) _ _ _ _ _ _ _ RG eq_refl LI' ST CL T) as (T' & _).
  exact (get_among C L CO ZO (req_type r') id' _ ps (req_type_cases r') ltac:(lia) ltac:(lia) arg nid GI ltac:(congruence) _ _ _ _ RX' ST T').
Qed.

Lemma end_again_among r2 id2 tr y : request_ok r2 -> req_id C (z_sha L) r2 id2 -> lower (prefix ++ id2) = lower b ->
  trace C L (fun s => new_apart C (wo_fs x) s) (mkWorld (wo_fs x) (wo_procs x ++ [(JStore r2, job_prog C L (JStore r2))])) tr y ->
  (forall e, In e tr -> ev_proc e = List.length (wo_procs x) -> harmless (ev_call e)) /\
  exists p, nth_error (wo_procs y) (List.length (wo_procs x)) = Some (JStore r2, p) /\ (forall a, p = Ret a -> a = Some (prefix ++ id2)).
Proof.
  clear SD. intros RO2 RI2 LB T. destruct (stored_end x r b RX AD AP HI) as (r' & id & id' & ps & -> & LI & _ & _ & HI' & LE & LI' & ST & CL & BD & _).
  rewrite !lower_app in LB. apply app_inv_head in LB.
  assert (RX' : reach C L (mkWorld (wo_fs x) (wo_procs x))) by (destruct x; exact RX).
  destruct (fresh C L CO ZO (wo_fs x) (wo_procs x) (JStore r2) RX' RO2) as (RG & _).
  destruct (trace_clear (wo_fs x) _ _ _ _ _ _ _ RG eq_refl LI' ST CL T) as (T' & _).
  exact (again_among C L CO ZO (req_type r') id' _ ps (req_type_cases r') ltac:(lia) ltac:(lia) r2 id2 RO2 RI2 ltac:(congruence) _ _ _ _ RX' ST T').
Qed.
End Ended.
End Origin.
