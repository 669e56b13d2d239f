(* Runs used as examples and counterexamples of what dumpindex and byid print. *)
From Coq Require Import String.
From Coq Require Import ZifyBool ZifyNat ZifyN.
From Verif Require Import Base BaseLemmas ListLemmas IndexModel IndexSpec IndexSysModel IndexSysSpec HeaderModel HeaderSpec InflateSpec GzipModel GzipSpec
  ProgModel StoreModel StoreSpec StoreSysModel StoreToy StoreToyOk StoreWit StoreRuns StoreEnd IdsModel IdsSpec IdsMain.
Open Scope string_scope.
Open Scope list_scope.
Open Scope N_scope.

Lemma segmented_hidden : exists x, reach K toy x /\ wo_procs x = [(JStore big, Ret (Some (c_prefix K ++ big_dig)))] /\ r_meta big = false /\
  exists ops st l, Forall ok_op ops /\ ideal_ops ops = f_idx (wo_fs x) /\ run_ops 32 4096 ifs_empty ops = Ok st /\
    main_dumpindex st None [big_dig] = Ok (Some l) /\ l <> [] /\
    main_dumpindex st (Some (str "resource")) [big_dig] = Ok (Some []).
Proof.
  destruct big_parts as (x & R & (E & AP) & (p & q & rest & ST)). exists x. split; [auto|]. split; [exact E|]. split; [reflexivity|].
  destruct (dump_segmented K toy K_ok toy_ok x big_dig R) as (ops & st & l & A & B & D & F & G & H); auto.
  - intros j pr I. rewrite E in I. destruct I as [I|[]]. injection I as _ <-. eauto.
  - exists (req_type big), (concat (r_data big)), p, q, rest. exact ST.
  - apply Forall_forall. intros c I. assert (X : forallb is_hex big_dig = true) by reflexivity. rewrite forallb_forall in X. auto.
  - exists ops, st, l. do 5 (split; auto). apply H. cbn [known_word In]. auto.
Qed.

(* With the prefix in front *)
Definition one_ops : list iop := [OInsert (str "39204683110a6ab20eef50ca542fd162") 4 0 317 None].
Lemma prefix_aborts : exists st l, run_ops 32 4096 ifs_empty one_ops = Ok st /\ main_dumpindex st None [hello_dig] = Ok (Some l) /\
  good_id (c_prefix K) 32 hello_id hello_dig /\
  l = str "39204683110a6ab20eef50ca 0x00000004        0          317 00000000" ++ [10] /\ main_dumpindex st None [hello_id] = Abort.
Proof.
  eexists. eexists. split; [vm_compute; reflexivity|]. split; [vm_compute; reflexivity|]. split; [|split; vm_compute; reflexivity].
  split; [|split; [reflexivity|right; exists (c_prefix K); split; reflexivity]].
  apply Forall_forall. intros c I. assert (X : forallb is_hex hello_dig = true) by reflexivity. rewrite forallb_forall in X. auto.
Qed.

(** * byid *)

Definition lists (s : fs) (arg out : bytes) (n : N) : bool :=
  match snd (run (main_byid K false [arg]) s) with inl (o, m) => bytes_eqb o out && (m =? n) | _ => false end.
Lemma lists_ok s arg out n : lists s arg out n = true -> snd (run (main_byid K false [arg]) s) = inl (out, n).
Proof.
  unfold lists. destruct (snd (run (main_byid K false [arg]) s)) as [[o m]|]; try discriminate. rewrite andb_true_iff, N.eqb_eq. intros (H & ->).
  apply bytes_eqb_true in H. congruence.
Qed.

Definition other_dig : bytes := str "39204683110a6ab20eef50caffffffff".
Lemma long_listed : exists x, reach K toy x /\ wo_procs x = [(JStore hello, Ret (Some hello_id))] /\
  len other_dig = c_idsize K /\ hexstr other_dig /\ other_dig <> hello_dig /\
  snd (run (main_byid K false [other_dig]) (wo_fs x)) = inl (str "id " ++ hello_dig ++ str " wt resource" ++ [10], 1).
Proof.
  destruct (go_all (each [JStore hello] 0) [inl (Some hello_id)] (fun x => lists (wo_fs x) other_dig (str "id " ++ hello_dig ++ str " wt resource" ++ [10]) 1)) as (x & R & E & O).
  - vm_cast_no_check (eq_refl true).
  - reflexivity.
  - exists x. split; [auto|]. split; [exact E|]. split; [reflexivity|]. split; [|split; [discriminate|apply lists_ok; auto]].
    apply Forall_forall. intros c I. assert (X : forallb is_hex other_dig = true) by reflexivity. rewrite forallb_forall in X. auto.
Qed.

(* While an object is being stored *)
Lemma busy_aborts : exists x p, reach K toy x /\ wo_procs x = [(JStore hello, p)] /\ (forall d, p <> Die d) /\
  snd (run (main_byid K false [hello_id]) (wo_fs x)) = inr DAbort.
Proof.
  pose (chk := match go K toy lim [PA (AStart (JStore hello)); PRun 0 is_link] w0 with
    | Some x => match wo_procs x with [(_, Call _ _)] => aborts (main_byid K false [hello_id]) (wo_fs x) | _ => false end
    | None => false end).
  assert (H : chk = true) by (vm_cast_no_check (eq_refl true)). unfold chk in H. clear chk.
  destruct (go K toy lim [PA (AStart (JStore hello)); PRun 0 is_link] w0) as [x|] eqn:G1; [|discriminate H].
  pose proof (go_jobs _ _ _ _ _ _ G1) as J.
  destruct (wo_procs x) as [|(j, p) [|? ?]] eqn:E; try discriminate H; [|destruct p; discriminate H].
  exists x, p. split; [exists fs0; split; [apply fs0_empty|eapply go_steps; eauto]|].
  split; [|split; [intros d X; subst p; discriminate H|destruct p; try discriminate H; apply aborts_ok; auto]].
  rewrite E. cbn in J. congruence.
Qed.

Lemma byid_case : exists x, reach K toy x /\ (forall j p, In (j, p) (wo_procs x) -> exists a, p = Ret a) /\
  Forall2 (frag (c_prefix K)) [hello_id; str "8"; []] [hello_dig; str "8"; []] /\ len [hello_id; str "8"; []] * len (f_idx (wo_fs x)) = 21 /\
  In (JStore hello, Ret (Some hello_id)) (wo_procs x) /\ no_frag (c_prefix K) (str "39x").
Proof.
  full x R E AP LE SI CA. exists x. split; [auto|]. split; [eapply five_ended; eauto|]. split; [|split; [rewrite LE; reflexivity|split; [rewrite E; left; reflexivity|]]].
  - repeat apply Forall2_cons; try apply Forall2_nil; (split; [|auto; fail]) || (split; [|right; exists (c_prefix K); split; reflexivity]);
      apply Forall_forall; [apply (proj1 (forallb_forall is_hex hello_dig))|apply (proj1 (forallb_forall is_hex (str "8")))|intros c []]; reflexivity.
  - intros f (H & [<-|(p & EP & EQ)]).
    + inversion H as [|? ? _ H1]; subst. inversion H1 as [|? ? _ H2]; subst. inversion H2. discriminate.
    + apply (f_equal (@List.length N)) in EQ, EP. unfold lower in EP. rewrite !map_length in EP. rewrite app_length, EP in EQ. discriminate EQ.
Qed.

Lemma dump_archive_case : exists x, reach K toy x /\ (forall j p, In (j, p) (wo_procs x) -> exists a, p = Ret a) /\ len (f_idx (wo_fs x)) = 7.
Proof. full x R E AP LE SI CA. exists x. split; [auto|]. split; [eapply five_ended; eauto|exact LE]. Qed.

(** * Histories for dumpindex *)
Definition dump_ex : ixent := ideal (str "f40000000000000000000000000000a2") 4 2 3 (Some (str "1234567f")).
Definition dump_ex_line : bytes := str "f40000000000000000000000 0x00000004        2            3 1234567f" ++ [10].
Lemma dump_ex_shows : Forall2 shows [dump_ex] [dump_ex_line].
Proof. constructor; [|constructor]. exact (dump_shows dump_ex eq_refl eq_refl eq_refl). Qed.

Lemma hex_all s : forallb is_hex s = true -> hexstr s.
Proof. intros H. apply Forall_forall. apply forallb_forall. auto. Qed.

Definition dump_evs : list hev :=
  map (fun k => EInsert (str k) 8 2 1234567890123 None)
    ["000000000000000000000000000000a1"; "000000000000000000000000000000a2";
     "010000000000000000000000000000a1"; "020000000000000000000000000000a2";
     "030000000000000000000000000000a1"] ++
  [EInsert (str "f40000000000000000000000000000a2") 4 2 3 (Some (str "1234567f")); EStart] ++ repeat (EStep 0) 9.
Lemma dump_hist_case : Forall ok_ev dump_evs /\ exists y, sys_run 32 4096 (mkSys ifs_empty []) dump_evs = Ok y /\
  (forall k, In k [str "f"] -> start_clear (y_fs y) k /\ bucket_used (y_fs y) k) /\
  main_dumpindex (y_fs y) (Some (str "resource")) [str "f"] = Ok (Some dump_ex_line).
Proof.
  split.
  - unfold dump_evs. cbn [map app repeat]. repeat apply Forall_cons; try apply Forall_nil; cbn [ok_ev ok_op]; try exact Logic.I;
      (split; [apply hex_all; reflexivity|]; do 3 (split; [reflexivity|]); try exact Logic.I; apply hex_all; reflexivity).
  - eexists. split; [vm_compute; reflexivity|]. split; [|vm_compute; reflexivity]. intros k [<-|[]]. split.
    + do 3 eexists. split; [vm_compute; reflexivity|]. split; [vm_compute; reflexivity|].
      split; [vm_compute; reflexivity|]. vm_compute. discriminate.
    + right. exists 2. eexists. split; [vm_compute; reflexivity|]. split.
      * eexists. split; [vm_compute; reflexivity|]. vm_compute. do 5 right. left. reflexivity.
      * eexists. split; [vm_compute; reflexivity|]. vm_compute. reflexivity.
Qed.

Definition dump_ops : list iop := [OInsert (str "f5") 8 0 0 None; OInsert (str "f40000000000000000000000000000a2") 4 2 3 (Some (str "1234567f"));
  OResort; OInsert (str "0f40000000000000000000000000000a") 8 1 1234567890123 None].
Lemma dump_sorted_case : Forall ok_op dump_ops /\ known_word (Some (str "metadata")) /\ len (ideal_ops dump_ops) = 3.
Proof.
  split; [|split; [cbn; auto|reflexivity]]. unfold dump_ops. repeat apply Forall_cons; try apply Forall_nil; cbn [ok_op]; try exact Logic.I;
    (split; [apply hex_all; reflexivity|]; do 3 (split; [reflexivity|]); try exact Logic.I; apply hex_all; reflexivity).
Qed.

Lemma abort_case : ~ hexstr (str "3920g").
Proof. intros H. apply Forall_inv_tail, Forall_inv_tail, Forall_inv_tail, Forall_inv_tail, Forall_inv in H. discriminate H. Qed.
