(* The filter command on index histories and on archives. *)
From Coq Require Import String Permutation Sorting.Sorted.
From Verif Require Import Base BaseLemmas IndexModel IndexSpec IndexProofs IndexSysModel IndexSysSpec IndexMain
  HeaderModel HeaderSpec InflateSpec GzipModel ProgModel StoreModel StoreSpec StoreSysModel StoreGet StoreWorld StoreToy StoreToyOk StoreWit StoreRuns StoreEnd
  FilterModel FilterSpec FilterProofs.
Open Scope string_scope.
Open Scope list_scope.
Open Scope N_scope.

Lemma ideal_key24 evs e : In e (ideal_evs evs) -> List.length (e_key e) = 24%nat.
Proof.
  induction evs as [|v evs IH]; [intros []|]. destruct v; simpl; auto. intros [<-|H]; auto. apply pad_length.
Qed.

Lemma filter_hist : forall qsort bufsiz prefix id_size sort_size evs (r_flag v_flag : bool) hdr_id gss,
  sorts qsort -> no_hex_prefix prefix id_size -> 24 <= id_size -> ok_conf id_size sort_size ->
  Forall ok_ev evs -> len (ideal_evs evs) < 2 ^ 38 ->
  Forall (Forall (good_given bufsiz prefix id_size)) gss -> Forall (Forall small_given) gss ->
  exists y there, sys_run id_size sort_size (mkSys ifs_empty []) evs = Ok y /\
    main_filter qsort bufsiz prefix id_size r_flag false v_flag hdr_id (map (flat_map text) gss) (y_fs y) =
      Ok (Some (flat_map (answer r_flag v_flag there) (List.concat gss))) /\
    forall p id t, In (Given p id t) (List.concat gss) -> (there id = true <-> listed (ideal_evs evs) id).
Proof.
  intros qsort bufsiz prefix id_size sort_size evs r v hdr_id gss Hq Hp Hi Hc He Hn Hg Hs.
  destruct (evs_visible id_size sort_size evs Hc He Hn) as (y & l & Ey & El & Hl & _).
  destruct (filter_main qsort bufsiz prefix id_size Hq Hi Hp false r v hdr_id (fun _ _ => true) (y_fs y) l gss) as (there & E & H); auto.
  - intros e Hin. apply Hl in Hin. eapply ideal_key24; eauto.
  - exists y, there. split; auto. split; auto. intros p id t Hin. rewrite (H p id t Hin). unfold listed.
    split; intros (e & H1 & H2); exists e; split; try apply Hl; try tauto; auto.
Qed.

Lemma filter_refuses : forall qsort bufsiz prefix id_size (r_flag s_flag v_flag : bool) hdr_id gss gs bad more st,
  16 <= id_size -> no_hex_prefix prefix id_size ->
  Forall (Forall (good_given bufsiz prefix id_size)) gss -> Forall (good_given bufsiz prefix id_size) gs ->
  refused bufsiz prefix id_size bad ->
  main_filter qsort bufsiz prefix id_size r_flag s_flag v_flag hdr_id
    (map (flat_map text) gss ++ (flat_map text gs ++ bad) :: more) st = Ok None.
Proof.
  intros. unfold main_filter. rewrite read_files_bad by (auto; lia). auto.
Qed.

Section World.
Variable C : conf.
Variable L : zlib.
Hypothesis CO : conf_ok C.
Hypothesis ZO : zlib_ok L.

Lemma asked_pad n o w e id : entry_for n o w e -> small id -> 24 <= len id ->
  (asked (Some id) e <-> pad 24 (h_id (wr_hdr w)) = firstn 24 id).
Proof.
  intros (_ & _ & K & _) S Hl. unfold asked. rewrite K, S. split.
  - intros (r & E). assert (r = []).
    { apply (f_equal (@List.length N)) in E. rewrite app_length, firstn_length, pad_length in E. unfold len in Hl. destruct r; auto.
      exfalso. cbn [List.length] in E. lia. }
    subst. rewrite app_nil_r in E. auto.
  - intros ->. exists []. rewrite app_nil_r. auto.
Qed.

Lemma small_len bufsiz gss p id t : Forall (Forall (good_given bufsiz (c_prefix C) (c_idsize C))) gss ->
  Forall (Forall small_given) gss -> In (Given p id t) (List.concat gss) -> small id /\ len id = c_idsize C.
Proof.
  intros Hg Hs H. apply in_concat in H. destruct H as (gs & H1 & H3). rewrite Forall_forall in Hg, Hs. specialize (Hg gs H1). specialize (Hs gs H1).
  rewrite Forall_forall in Hg, Hs. destruct (Hg _ H3) as (_ & _ & _ & _ & Hl). split; [exact (Hs _ H3)|auto].
Qed.

Lemma pad_small id h : small id -> 24 <= len id -> lower h = lower id -> pad 24 h = firstn 24 id.
Proof.
  intros S Hl E. unfold pad. rewrite E, S, firstn_app.
  replace (24 - List.length id)%nat with 0%nat by (unfold len in Hl; lia). rewrite firstn_O, app_nil_r. auto.
Qed.

Lemma printed_there x r b id : reach C L x -> (forall n, f_hold (wo_fs x) n = None) ->
  In (JStore r, Ret (Some b)) (wo_procs x) -> lower b = lower (c_prefix C ++ id) ->
  exists n o w e, in_archive C L (wo_fs x) n o w e /\ lower (h_id (wr_hdr w)) = lower id.
Proof.
  intros R Q HI Eb. destruct (segments C L CO ZO x r b R HI) as (id' & -> & _ & _ & _ & OC).
  unfold lower in Eb. rewrite !map_app in Eb. apply app_inv_head in Eb. fold (lower id') (lower id) in Eb.
  destruct OC as [(p & rest & (_ & ST) & _)|PR].
  - exists (p_silo p), (p_off p), (p_rec p), (p_ent p). destruct ST as (_ & ST). destruct rest as [|q rest].
    + destruct ST as (A & B & _). split; auto. unfold p_id in B. congruence.
    + destruct ST as ((A & _ & B) & _). split; auto. cbn in B. destruct B as [B _]. unfold p_id in B. congruence.
  - destruct (PR Q) as (w & n & o & e & A & B & _). exists n, o, w, e. split; auto. congruence.
Qed.

Lemma filter_archive : forall x qsort bufsiz (r_flag v_flag : bool) hdr_id gss st l,
  reach C L x -> (forall j p, In (j, p) (wo_procs x) -> exists a, p = Ret a) ->
  sorts qsort -> no_hex_prefix (c_prefix C) (c_idsize C) -> 24 <= c_idsize C ->
  lookup st None = Ok l -> (forall e, In e l <-> In e (f_idx (wo_fs x))) ->
  Forall (Forall (good_given bufsiz (c_prefix C) (c_idsize C))) gss -> Forall (Forall small_given) gss ->
  exists there,
    main_filter qsort bufsiz (c_prefix C) (c_idsize C) r_flag false v_flag hdr_id (map (flat_map text) gss) st =
      Ok (Some (flat_map (answer r_flag v_flag there) (List.concat gss))) /\
    (forall p id t, In (Given p id t) (List.concat gss) ->
       (there id = true <-> exists n o w e, in_archive C L (wo_fs x) n o w e /\ pad 24 (h_id (wr_hdr w)) = firstn 24 id) /\
       (forall r b, In (JStore r, Ret (Some b)) (wo_procs x) -> lower b = lower (c_prefix C ++ id) -> there id = true)).
Proof.
  intros x qsort bufsiz r v hdr_id gss st l R AD Hq Hp Hi El Hl Hg Hs.
  destruct (index_end C L CO ZO x R AD) as (A1 & _ & Q).
  destruct (filter_main qsort bufsiz (c_prefix C) (c_idsize C) Hq Hi Hp false r v hdr_id (fun _ _ => true) st l gss) as (there & E & H); auto.
  - intros e Hin. apply Hl in Hin. destruct (A1 e Hin) as (w & _ & (_ & _ & K & _) & _). rewrite K. apply pad_length.
  - exists there. split; auto. intros p id t Hin. destruct (small_len bufsiz gss p id t Hg Hs Hin) as (S & Hlen).
    assert (T : there id = true <-> exists n o w e, in_archive C L (wo_fs x) n o w e /\ pad 24 (h_id (wr_hdr w)) = firstn 24 id).
    { rewrite (H p id t Hin). split.
      - intros (e & H1 & H2 & _). apply Hl in H1. destruct (A1 e H1) as (w & A). exists (e_silo e), (e_off e), w, e. split; auto.
        destruct A as (_ & EF & _). eapply asked_pad; eauto. lia.
      - intros (n & o & w & e & A & B). exists e. assert (A' := A). destruct A' as (A2 & EF & _). split; [apply Hl; auto|]. split; auto.
        eapply asked_pad; eauto. lia. }
    split; auto. intros rq b HI Eb. apply T.
    destruct (printed_there x rq b id R Q HI Eb) as (n & o & w & e & A & B). exists n, o, w, e. split; auto.
    apply pad_small; auto. lia.
Qed.

Lemma silo_id n o w e s : in_archive C L s n o w e -> silo_hdr_id C s n o = Ok (h_id (wr_hdr w)).
Proof.
  intros (_ & _ & b & wr & a & r & z & F & -> & <- & RC). unfold silo_hdr_id. rewrite F.
  destruct (read_header C L CO a r z w RC) as (H & B & _ & _ & ->). auto.
Qed.

Lemma filter_silos : forall x qsort bufsiz (r_flag v_flag : bool) gss st l,
  reach C L x -> (forall j p, In (j, p) (wo_procs x) -> exists a, p = Ret a) ->
  sorts qsort -> no_hex_prefix (c_prefix C) (c_idsize C) -> 24 <= c_idsize C ->
  lookup st None = Ok l -> (forall e, In e l <-> In e (f_idx (wo_fs x))) ->
  (forall n1 o1 w1 e1 n2 o2 w2 e2, in_archive C L (wo_fs x) n1 o1 w1 e1 -> in_archive C L (wo_fs x) n2 o2 w2 e2 ->
     e_key e1 = e_key e2 -> lower (h_id (wr_hdr w1)) = lower (h_id (wr_hdr w2))) ->
  Forall (Forall (good_given bufsiz (c_prefix C) (c_idsize C))) gss -> Forall (Forall small_given) gss ->
  exists there,
    main_filter qsort bufsiz (c_prefix C) (c_idsize C) r_flag true v_flag (silo_hdr_id C (wo_fs x)) (map (flat_map text) gss) st =
      Ok (Some (flat_map (answer r_flag v_flag there) (List.concat gss))) /\
    (forall p id t, In (Given p id t) (List.concat gss) ->
       (there id = true <-> exists n o w e, in_archive C L (wo_fs x) n o w e /\ lower (h_id (wr_hdr w)) = id) /\
       (forall r b, In (JStore r, Ret (Some b)) (wo_procs x) -> lower b = lower (c_prefix C ++ id) -> there id = true)).
Proof.
  intros x qsort bufsiz r v gss st l R AD Hq Hp Hi El Hl Hap Hg Hs.
  destruct (index_end C L CO ZO x R AD) as (A1 & _ & Q).
  set (ok := fun e id => match silo_hdr_id C (wo_fs x) (e_silo e) (e_off e) with Ok h => caseeq h id | _ => false end).
  destruct (filter_main qsort bufsiz (c_prefix C) (c_idsize C) Hq Hi Hp true r v (silo_hdr_id C (wo_fs x)) ok st l gss) as (there & E & H); auto.
  - intros e Hin. apply Hl in Hin. destruct (A1 e Hin) as (w & _ & (_ & _ & K & _) & _). rewrite K. apply pad_length.
  - intros e p id t He Hin Ha. apply Hl in He. destruct (A1 e He) as (w & A). unfold s_check, ok. rewrite (silo_id _ _ _ _ _ A). auto.
  - intros e1 e2 p id t H1 H2 Ek _ _. apply Hl in H1. apply Hl in H2. destruct (A1 e1 H1) as (w1 & B1). destruct (A1 e2 H2) as (w2 & B2).
    unfold ok. rewrite (silo_id _ _ _ _ _ B1), (silo_id _ _ _ _ _ B2). unfold caseeq. rewrite (Hap _ _ _ _ _ _ _ _ B1 B2 Ek). auto.
  - exists there. split; auto. intros p id t Hin. destruct (small_len bufsiz gss p id t Hg Hs Hin) as (S & Hlen).
    assert (T : there id = true <-> exists n o w e, in_archive C L (wo_fs x) n o w e /\ lower (h_id (wr_hdr w)) = id).
    { rewrite (H p id t Hin). split.
      - intros (e & H1 & H2 & H3). apply Hl in H1. destruct (A1 e H1) as (w & A). exists (e_silo e), (e_off e), w, e. split; auto.
        unfold ok in H3. rewrite (silo_id _ _ _ _ _ A) in H3. apply caseeq_true in H3. rewrite H3. exact S.
      - intros (n & o & w & e & A & B). exists e. assert (A' := A). destruct A' as (A2 & EF & _). split; [apply Hl; auto|]. split.
        + eapply asked_pad; eauto; [lia|]. apply pad_small; auto; [lia|]. rewrite S. auto.
        + unfold ok. destruct EF as (-> & -> & _). rewrite (silo_id _ _ _ _ _ A). apply caseeq_true. rewrite S. auto. }
    split; auto. intros rq b HI Eb. apply T.
    destruct (printed_there x rq b id R Q HI Eb) as (n & o & w & e & A & B). exists n, o, w, e. split; auto. congruence.
Qed.
End World.

(** * Cases *)

Definition put_all (es : list ixent) : res ifs :=
  run_ops 32 4096 ifs_empty (map (fun e => OInsert (e_key e) (e_flags e) (e_silo e) (e_off e) (Some (e_cont e))) es).
Fixpoint same_ents (a b : list ixent) : bool :=
  match a, b with [], [] => true | x :: a', y :: b' => ent_eqb x y && same_ents a' b' | _, _ => false end.
Lemma ent_eqb_true a b : ent_eqb a b = true -> a = b.
Proof.
  unfold ent_eqb. rewrite !andb_true_iff, !N.eqb_eq. intros ((((H1 & H2) & H3) & H4) & H5). apply bytes_eqb_true in H1, H5.
  destruct a, b. cbn in *. congruence.
Qed.
Lemma same_ents_true a : forall b, same_ents a b = true -> a = b.
Proof.
  induction a as [|x a IH]; intros [|y b] H; cbn in H; try discriminate; auto. rewrite andb_true_iff in H. destruct H as (H1 & H2).
  f_equal; [apply ent_eqb_true|]; auto.
Qed.

Definition hello_given : list given := [Given (c_prefix K) (str "39204683110a6ab20eef50ca542fd162") (str " x"); Blank; Given [] (str "0123456789abcdef0123456789abcdef") []].
Lemma world_case : exists x ix, reach K toy x /\ (forall j p, In (j, p) (wo_procs x) -> exists a, p = Ret a) /\
  24 <= c_idsize K /\ no_hex_prefix (c_prefix K) (c_idsize K) /\ lookup ix None = Ok (f_idx (wo_fs x)) /\
  apart K (wo_fs x) /\ len (f_idx (wo_fs x)) = 2 /\
  In (JStore hello, Ret (Some hello_id)) (wo_procs x) /\
  Forall (good_given 1024 (c_prefix K) (c_idsize K)) hello_given /\ Forall small_given hello_given.
Proof.
  pose (chk := match go K toy lim (each [JStore hello] 0) w0 with
    | Some x => all_as [inl (Some hello_id)] 0 x && (apart8 (wo_fs x) && all_ended x && (len (f_idx (wo_fs x)) =? 2) &&
        match put_all (f_idx (wo_fs x)) with
        | Ok ix => match lookup ix None with Ok l => same_ents l (f_idx (wo_fs x)) | _ => false end
        | _ => false
        end)
    | None => false end).
  assert (H : chk = true) by (vm_cast_no_check (eq_refl true)). unfold chk in H. clear chk.
  destruct (go K toy lim (each [JStore hello] 0) w0) as [x|] eqn:G1; [|discriminate H]. rewrite !andb_true_iff in H. destruct H as (H1 & ((H2 & H3) & H5) & H4).
  destruct (put_all (f_idx (wo_fs x))) as [ix| | |]; try discriminate H4.
  destruct (lookup ix None) as [l| | |] eqn:El; try discriminate H4. apply same_ents_true in H4. subst l.
  exists x, ix. split; [exists fs0; split; [apply fs0_empty|eapply go_steps; eauto]|].
  split; [apply all_ended_ok; auto|]. split; [cbn; lia|].
  split; [exists [], 104, (str "ttp://example.com/"); repeat split; cbn; lia|].
  split; [exact El|]. split; [apply apart8_ok; auto|]. split; [apply N.eqb_eq; auto|].
  split.
  { rewrite (procs_are x [JStore hello] [inl (Some hello_id)] (go_jobs _ _ _ _ _ _ G1) eq_refl (all_as_ok _ 0 x H1)). left. reflexivity. }
  split.
  - repeat apply Forall_cons; [| | |apply Forall_nil].
    + split; [|split; [|split; [|split]]].
      * repeat (apply Forall_cons; [split; discriminate|]). apply Forall_nil.
      * apply Nat.leb_le. reflexivity.
      * right; reflexivity.
      * repeat (apply Forall_cons; [reflexivity|]). apply Forall_nil.
      * reflexivity.
    + split; [apply Forall_nil|]. split; [apply Nat.leb_le; reflexivity|exact I].
    + split; [|split; [|split; [|split]]].
      * repeat (apply Forall_cons; [split; discriminate|]). apply Forall_nil.
      * apply Nat.leb_le. reflexivity.
      * left; reflexivity.
      * repeat (apply Forall_cons; [reflexivity|]). apply Forall_nil.
      * reflexivity.
  - repeat apply Forall_cons; try apply Forall_nil; reflexivity || exact I.
Qed.

(** * What is reported wrongly *)

(* qsort, for evaluation *)
Fixpoint ins_cand (c : scand) (l : list scand) : list scand :=
  match l with
  | [] => [c]
  | d :: r => if lexb_le (snd c) (snd d) then c :: l else d :: ins_cand c r
  end.
Definition isort (l : list scand) : list scand := fold_right ins_cand [] l.
Lemma isort_sorts : sorts isort.
Proof.
  assert (P : forall c l, Permutation (ins_cand c l) (c :: l)).
  { intros c l. induction l as [|d l IH]; cbn [ins_cand]; auto. destruct (lexb_le (snd c) (snd d)); auto.
    rewrite IH. apply perm_swap. }
  intros l. split.
  - induction l as [|c l IH]; cbn; auto. fold (isort l). rewrite P. auto.
  - induction l as [|c l IH]; cbn; [constructor|]. fold (isort l). revert IH. generalize (isort l). clear l. induction l as [|d l IH]; intros S; cbn [ins_cand].
    + constructor; constructor.
    + unfold lexb_le. destruct (lex (snd c) (snd d)) eqn:E.
      1, 2: constructor; auto; constructor; [congruence|]; inversion S as [|? ? S1 S2]; subst; eapply Forall_impl; [|exact S2];
        intros x Hx; eapply (lexle_trans _ (snd d)); [unfold lexle; congruence|exact Hx].
      inversion S as [|? ? S1 S2]; subst. constructor; auto. eapply Permutation_Forall; [apply Permutation_sym; apply P|].
      constructor; auto. rewrite lex_antisym, E. discriminate.
Qed.

Definition abc : bytes := str "abcdef0123456789abcdef0123456789".
Definition ABC : bytes := str "ABCDEF0123456789ABCDEF0123456789".
Definition abd : bytes := str "abcdef0123456789abcdef01ffffffff".
Definition pre : bytes := str "http://x/".
Definition shorter : bytes := str "abcdef0123456789".

Lemma pre_ok n : 16 <= n -> no_hex_prefix pre n.
Proof. intros. exists [], 104, (str "ttp://x/"). repeat split. cbn. lia. Qed.

Lemma given_ok id n : hexstr id -> plain id -> len id = n -> (List.length id < 1000)%nat -> good_given 1024 pre n (Given [] id []).
Proof.
  intros H1 H2 H3 H4. unfold good_given, text, g_line. rewrite app_nil_l, app_nil_r. split; auto. split; [|auto].
  rewrite app_length. cbn [List.length]. lia.
Qed.
Ltac hex := repeat (apply Forall_cons; [reflexivity|]); apply Forall_nil.
Ltac pla := repeat (apply Forall_cons; [split; discriminate|]); apply Forall_nil.

Lemma upper_missing : exists qsort bufsiz prefix id_size sort_size evs y e g id, sorts qsort /\ no_hex_prefix prefix id_size /\
  24 <= id_size /\ ok_conf id_size sort_size /\ Forall ok_ev evs /\ sys_run id_size sort_size (mkSys ifs_empty []) evs = Ok y /\
  good_given bufsiz prefix id_size g /\ g = Given [] id [] /\ lookup (y_fs y) (Some id) = Ok [e] /\
  main_filter qsort bufsiz prefix id_size false false false (fun _ _ => Abort) [text g] (y_fs y) = Ok (Some (text g)).
Proof.
  exists isort, 1024%nat, pre, 32, 4096, [EInsert abc 4 0 100 None]. eexists. eexists. exists (Given [] ABC []), ABC.
  split; [apply isort_sorts|]. split; [apply pre_ok; lia|]. split; [lia|]. split; [repeat split; lia || reflexivity|].
  split; [repeat constructor|]. split; [vm_compute; reflexivity|].
  split; [apply given_ok; [hex|pla|reflexivity|apply Nat.ltb_lt; reflexivity]|]. split; auto.
  split; vm_compute; reflexivity.
Qed.

Lemma short_missing : exists qsort bufsiz prefix id_size sort_size evs y e g id, sorts qsort /\ no_hex_prefix prefix id_size /\
  ok_conf id_size sort_size /\ Forall ok_ev evs /\ sys_run id_size sort_size (mkSys ifs_empty []) evs = Ok y /\
  good_given bufsiz prefix id_size g /\ g = Given [] id [] /\ small id /\ lookup (y_fs y) (Some id) = Ok [e] /\
  main_filter qsort bufsiz prefix id_size false false false (fun _ _ => Abort) [text g] (y_fs y) = Ok (Some (text g)).
Proof.
  exists isort, 1024%nat, pre, 16, 4096, [EInsert shorter 4 0 100 None]. eexists. eexists. exists (Given [] shorter []), shorter.
  split; [apply isort_sorts|]. split; [apply pre_ok; lia|]. split; [repeat split; lia || reflexivity|].
  split; [repeat constructor|]. split; [vm_compute; reflexivity|].
  split; [apply given_ok; [hex|pla|reflexivity|apply Nat.ltb_lt; reflexivity]|]. split; auto. split; [reflexivity|].
  split; vm_compute; reflexivity.
Qed.

(* Two records with the same 24 digits: the first is reported to be there when it
   is not asked for (without -s), the second is not found (with -s). *)
Definition two_ids (n off : N) : res bytes := if off =? 100 then Ok abc else Ok abd.
Lemma clash_present : exists qsort bufsiz prefix id_size sort_size key flags silo off y g id, sorts qsort /\ no_hex_prefix prefix id_size /\
  24 <= id_size /\ ok_conf id_size sort_size /\ len key = id_size /\
  sys_run id_size sort_size (mkSys ifs_empty []) [EInsert key flags silo off None] = Ok y /\
  good_given bufsiz prefix id_size g /\ g = Given [] id [] /\ small id /\ small key /\ id <> key /\
  main_filter qsort bufsiz prefix id_size true false false (fun _ _ => Abort) [text g] (y_fs y) = Ok (Some (text g)).
Proof.
  exists isort, 1024%nat, pre, 32, 4096, abc, 4, 0, 100. eexists. exists (Given [] abd []), abd.
  split; [apply isort_sorts|]. split; [apply pre_ok; lia|]. split; [lia|]. split; [repeat split; lia || reflexivity|].
  split; [reflexivity|]. split; [vm_compute; reflexivity|].
  split; [apply given_ok; [hex|pla|reflexivity|apply Nat.ltb_lt; reflexivity]|]. split; auto. split; [reflexivity|].
  split; [reflexivity|]. split; [discriminate|]. vm_compute; reflexivity.
Qed.

Lemma clash_missing : exists qsort bufsiz prefix id_size sort_size k1 k2 flags silo o1 o2 y (hdr_id : N -> N -> res bytes) g more,
  sorts qsort /\ no_hex_prefix prefix id_size /\ 24 <= id_size /\ ok_conf id_size sort_size /\ small k1 /\ small k2 /\
  sys_run id_size sort_size (mkSys ifs_empty []) [EInsert k1 flags silo o1 None; EInsert k2 flags silo o2 None] = Ok y /\
  hdr_id silo o1 = Ok k1 /\ hdr_id silo o2 = Ok k2 /\
  good_given bufsiz prefix id_size g /\ g = Given [] k2 [] /\ good_given bufsiz prefix id_size more /\
  main_filter qsort bufsiz prefix id_size false true false hdr_id [text g ++ text more] (y_fs y) = Ok (Some (text g ++ text more)).
Proof.
  exists isort, 1024%nat, pre, 32, 4096, abc, abd, 4, 0, 100, 200. eexists. exists two_ids, (Given [] abd []), (Given [] (str "ffffffffffffffffffffffffffffffff") []).
  split; [apply isort_sorts|]. split; [apply pre_ok; lia|]. split; [lia|]. split; [repeat split; lia || reflexivity|].
  split; [reflexivity|]. split; [reflexivity|]. split; [vm_compute; reflexivity|]. split; [reflexivity|]. split; [reflexivity|].
  split; [apply given_ok; [hex|pla|reflexivity|apply Nat.ltb_lt; reflexivity]|]. split; auto.
  split; [apply given_ok; [hex|pla|reflexivity|apply Nat.ltb_lt; reflexivity]|]. vm_compute; reflexivity.
Qed.

(* The list of entries is longer than one: housekeeping between, restart of the
   walk, unsorted input. *)
Definition some_evs : list hev :=
  [EInsert abd 4 0 200 None; EInsert (str "00ff000000000000000000000000000000") 8 0 300 None] ++ [EStart] ++ repeat (EStep 0) 12 ++
  [EInsert abc 4 0 100 None; EInsert (str "1234567890123456789012345678901234567890") 4 1 7 None].
Definition some_given : list (list given) :=
  [[Given (str "HTTP://X/") abc (str " first"); Blank; Given [] (str "99999999999999999999999999999999") []];
   [Given [] (str "12345678901234567890123456789012") (str "3456")]].
Lemma some_case : Forall ok_ev some_evs /\ len (ideal_evs some_evs) = 4 /\ Forall (Forall (good_given 1024 pre 32)) some_given /\
  Forall (Forall small_given) some_given /\
  exists y, sys_run 32 4096 (mkSys ifs_empty []) some_evs = Ok y /\ f_sorted (y_fs y) <> None /\ f_app (y_fs y) <> None /\
    main_filter isort 1024 pre 32 false false false (fun _ _ => Abort) (map (flat_map text) some_given) (y_fs y) =
      Ok (Some (str "99999999999999999999999999999999" ++ [10])).
Proof.
  assert (G : Forall (Forall (good_given 1024 pre 32)) some_given).
  { repeat apply Forall_cons; try apply Forall_nil.
    1, 3, 4: split; [pla|split; [apply Nat.ltb_lt; reflexivity|split; [|split; [hex|reflexivity]]]].
    - right; reflexivity.
    - left; reflexivity.
    - left; reflexivity.
    - split; [apply Forall_nil|]. split; [apply Nat.ltb_lt; reflexivity|exact I]. }
  split; [repeat (apply Forall_cons; [repeat split; try reflexivity; hex|]); apply Forall_nil|].
  split; [reflexivity|]. split; [exact G|]. split; [repeat apply Forall_cons; try apply Forall_nil; reflexivity || exact I|].
  eexists. split; [vm_compute; reflexivity|]. split; [discriminate|]. split; [discriminate|]. vm_compute. reflexivity.
Qed.

Lemma refused_case : refused 1024 pre 32 (str "http://x/abc" ++ [10] ++ str "more").
Proof.
  apply ref_form; [discriminate|pla|apply Nat.ltb_lt; reflexivity|].
  intros p id t E (_ & _ & [->|Hp] & Hh & Hl).
  - apply (f_equal (@len N)) in E. unfold len in *. rewrite !app_length in E. cbn in E. lia.
  - apply (f_equal (@len N)) in E. unfold len in *. rewrite !app_length in E. cbn in E. lia.
Qed.
