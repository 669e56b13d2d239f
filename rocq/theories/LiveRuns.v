(* Examples for PLive. *)
From Coq Require Import String Permutation.
From Coq Require Import ZifyBool ZifyNat ZifyN.
From Verif Require Import Base BaseLemmas ListLemmas IndexModel IndexSpec HeaderModel HeaderSpec InflateSpec GzipModel GzipSpec
  ProgModel StoreModel StoreSpec StoreSysModel StoreToy StoreToyOk StoreWp StoreMain StoreWorld StoreAgain StoreOrigin StoreWit StoreRuns StoreEnd
  LiveSpec LiveToy.
Open Scope string_scope.
Open Scope list_scope.
Open Scope N_scope.

(* a command run from start to end *)
Lemma run_steps C L ps j p : forall s s' a, run p s = (s', inl a) ->
  steps C L (mkWorld s (ps ++ [(j, p)])) (mkWorld s' (ps ++ [(j, Ret a)])).
Proof.
  induction p as [x|d|c k IH]; intros s s' a E; cbn [run] in E.
  - injection E as <- <-. constructor.
  - discriminate.
  - destruct (exec c s) as [s1 y] eqn:EX.
    assert (T : forall u v w, steps C L u v -> step C L w u -> steps C L w v).
    { clear. intros u v w H W. induction H as [a|a b c H IH S]; [eapply steps_step; [constructor|exact W]|]. eapply steps_step; eauto. }
    eapply T; [eapply (IH y); exact E|]. eexists. pose proof (st_call C L s ps [] j c k) as X. rewrite EX in X. cbn [fst snd] in X. exact X.
Qed.
Lemma run_reach C L s ps j s' a : job_ok j -> reach C L (mkWorld s ps) -> run (job_prog C L j) s = (s', inl a) ->
  reach C L (mkWorld s' (ps ++ [(j, Ret a)])).
Proof.
  intros JO (s0 & E0 & S) E. exists s0. split; [auto|].
  assert (T : forall u v w, steps C L u v -> steps C L v w -> steps C L u w).
  { clear. intros u v w H W. induction W as [a|a b c W IH K]; [auto|]. eapply steps_step; [apply IH; auto|exact K]. }
  eapply T; [eapply steps_step; [exact S|eexists; apply (st_start C L s ps j JO)]|]. apply run_steps. auto.
Qed.

Definition KL : conf := toy_conf 20000.
Lemma KL_ok : conf_ok KL.
Proof. apply toy_conf_ok. lia. Qed.

Lemma no_key C L s id : forallb (fun e => negb (bytes_eqb (e_key e) (pad 24 id))) (f_idx s) = true -> unknown C L s id.
Proof.
  rewrite forallb_forall. intros H n o w e (IN & (_ & _ & EK & _) & _) E. specialize (H e IN). rewrite EK in H. unfold pad in H. rewrite E in H.
  rewrite bytes_eqb_refl in H. discriminate.
Qed.

Lemma fits_small r : len (List.concat (r_data r)) <= 100 -> fits KL r.
Proof.
  intros H n Hn. 
  pose proof (co_room (toy_conf 12000) (toy_conf_ok 12000 ltac:(lia)) n Hn) as R. change (c_max (toy_conf 12000)) with 12000 in R.
  change (warcinfo_body (toy_conf 12000) (c_base (toy_conf 12000) n)) with (warcinfo_body KL (c_base KL n)) in R. change (c_max KL) with 20000. lia.
Qed.

Lemma hello_req : request_ok hello /\ r_ident hello = None /\ r_data hello <> [] /\ fits KL hello /\ rounds KL hello /\ req_id KL (z_sha toy3) hello hello_dig.
Proof.
  split; [apply job_okb_ok with (j := JStore hello); reflexivity|]. split; [reflexivity|]. split; [discriminate|].
  split; [apply fits_small; vm_compute; discriminate|]. split; [reflexivity|vm_compute; reflexivity].
Qed.

Lemma new_case : exists x, reach KL toy3 x /\ (forall j p, In (j, p) (wo_procs x) -> exists a, p = Ret a) /\
  request_ok hello /\ r_ident hello = None /\ r_data hello <> [] /\ fits KL hello /\ number_left KL (wo_fs x) /\ rounds KL hello /\
  req_id KL (z_sha toy3) hello hello_dig /\ unknown KL toy3 (wo_fs x) hello_dig /\ r_meta hello = false.
Proof.
  destruct hello_req as (H1 & H2 & H3 & H4 & H5 & H6). exists (mkWorld fs0 []). split; [exists fs0; split; [apply fs0_empty|constructor]|].
  split; [intros j p []|]. split; [auto|]. split; [auto|]. split; [auto|]. split; [auto|]. split; [|split; [auto|split; [auto|split; [|reflexivity]]]].
  - exists 0. split; [reflexivity|]. split; reflexivity.
  - apply no_key. reflexivity.
Qed.

(* metadata about the object just stored *)
Definition about : request := mkReq true (str "text/plain") hello_dig None [str "about"].
Definition about_dig : bytes := firstn 32 (z_sha toy3 ((str "<" ++ hello_id ++ str ">") ++ [10] ++ z_sha toy3 (str "about") ++ [10])).

Definition after (s : fs) : bool := apart8 s && (len (f_idx s) =? 2) && match f_silo s 1 with None => true | _ => false end &&
  forallb (fun e => negb (bytes_eqb (e_key e) (pad 24 about_dig))) (f_idx s).

Lemma two_run : exists s', run (job_prog KL toy3 (JStore hello)) fs0 = (s', inl (Some hello_id)) /\ after s' = true.
Proof.
  assert (X : match run (job_prog KL toy3 (JStore hello)) fs0 with
              | (s', inl (Some b)) => bytes_eqb b hello_id && after s' | _ => false end = true) by (vm_cast_no_check (eq_refl true)).
  destruct (run (job_prog KL toy3 (JStore hello)) fs0) as [s' [[b|]|]]; try discriminate. apply andb_true_iff in X. destruct X as (X1 & X2).
  apply bytes_eqb_true in X1. subst b. eauto.
Qed.
Lemma two : exists x, reach KL toy3 x /\ wo_procs x = [(JStore hello, Ret (Some hello_id))] /\ after (wo_fs x) = true.
Proof.
  destruct two_run as (s' & E & A). exists (mkWorld s' [(JStore hello, Ret (Some hello_id))]). split; [|auto].
  apply (run_reach KL toy3 fs0 [] (JStore hello) s'); [apply hello_req|exists fs0; split; [apply fs0_empty|constructor]|auto].
Qed.

Lemma after_apart s : after s = true -> apart KL s /\ List.length (f_idx s) = 2%nat /\ number_left KL s /\ unknown KL toy3 s about_dig.
Proof.
  unfold after. rewrite !andb_true_iff. intros (((A1 & A2) & A3) & A4). split; [exact (apart8_ok s A1)|]. split; [unfold len in A2; lia|].
  split; [|apply no_key; auto]. exists 1. split; [reflexivity|]. split; [destruct (f_silo s 1); [discriminate|auto]|reflexivity].
Qed.

Lemma meta_case : exists x, reach KL toy3 x /\ (forall j p, In (j, p) (wo_procs x) -> exists a, p = Ret a) /\
  request_ok about /\ r_ident about = None /\ r_data about <> [] /\ fits KL about /\ number_left KL (wo_fs x) /\ rounds KL about /\
  req_id KL (z_sha toy3) about about_dig /\ unknown KL toy3 (wo_fs x) about_dig /\ r_meta about = true /\ apart KL (wo_fs x) /\
  List.length (f_idx (wo_fs x)) = 2%nat /\ In (JStore hello, Ret (Some hello_id)) (wo_procs x) /\
  good_id (c_prefix KL) (c_idsize KL) (full_ref KL about) hello_dig /\ c_prefix KL ++ hello_dig = hello_id.
Proof.
  destruct two as (x & R & E & A). exists x. apply after_apart in A. destruct A as (A1 & A2 & A3 & A4). split; [auto|].
  split. { intros j p H. rewrite E in H. destruct H as [H|[]]. injection H as _ <-. eauto. }
  split; [apply job_okb_ok with (j := JStore about); reflexivity|]. split; [reflexivity|]. split; [discriminate|].
  split; [apply fits_small; vm_compute; discriminate|]. split; [auto|]. split; [reflexivity|]. split; [reflexivity|]. split; [auto|].
  split; [reflexivity|]. split; [auto|]. split; [auto|]. split; [rewrite E; left; reflexivity|]. split; [|reflexivity].
  apply valid_iff; [apply KL_ok|]. vm_compute. reflexivity.
Qed.

Lemma twice_case : exists x, reach KL toy3 x /\ (forall j p, In (j, p) (wo_procs x) -> exists a, p = Ret a) /\
  request_ok hello /\ r_ident hello = None /\ r_data hello <> [] /\ fits KL hello /\ number_left KL (wo_fs x) /\ rounds KL hello /\
  req_id KL (z_sha toy3) hello hello_dig /\ r_meta hello = false /\ apart KL (wo_fs x) /\
  List.length (f_idx (wo_fs x)) = 2%nat /\ In (JStore hello, Ret (Some hello_id)) (wo_procs x) /\ c_prefix KL ++ hello_dig = hello_id.
Proof.
  destruct hello_req as (H1 & H2 & H3 & H4 & H5 & H6).
  destruct two as (x & R & E & A). exists x. apply after_apart in A. destruct A as (A1 & A2 & A3 & A4). split; [auto|].
  split. { intros j p H. rewrite E in H. destruct H as [H|[]]. injection H as _ <-. eauto. }
  repeat (split; [solve [auto]|]). split; [rewrite E; left; reflexivity|reflexivity].
Qed.
