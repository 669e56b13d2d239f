(* Archives where a store begins a silo. *)
From Coq Require Import String.
From Coq Require Import ZifyBool ZifyNat ZifyN.
From Verif Require Import Base BaseLemmas ListLemmas IndexModel IndexSpec HeaderModel HeaderSpec
  ProgModel StoreModel StoreSpec StoreSysModel StoreToy StoreToyOk StoreWit StoreRuns StoreEnd LiveSpec LiveToy LiveMain LiveRuns RoomSpec.
Open Scope string_scope.
Open Scope list_scope.
Open Scope N_scope.

Definition KR : conf := toy_conf 14200.
Lemma KR_ok : conf_ok KR.
Proof. apply toy_conf_ok. lia. Qed.
Lemma fits_KR : fits KR hello.
Proof.
  intros n Hn.
  pose proof (co_room (toy_conf 12000) (toy_conf_ok 12000 ltac:(lia)) n Hn) as R. change (c_max (toy_conf 12000)) with 12000 in R.
  change (warcinfo_body (toy_conf 12000) (c_base (toy_conf 12000) n)) with (warcinfo_body KR (c_base KR n)) in R. change (c_max KR) with 14200.
  change (len (List.concat (r_data hello))) with 12. lia.
Qed.

(* Silo 0 is nearly full after the first store. *)
Definition much : request := st (List.concat (repeat (str "nearly full ----") 800)).
Definition begun (s : fs) : bool := match f_silo s 1 with Some _ => true | None => false end.
Lemma begun_some s : begun s = true -> f_silo s 1 <> None.
Proof. unfold begun. destruct (f_silo s 1); discriminate. Qed.
Definition full_silo (s : fs) : bool :=
  match f_silo s 0, f_silo s 1 with Some (_, true), None => true | _, _ => false end &&
  forallb (fun e => negb (bytes_eqb (e_key e) (pad 24 hello_dig))) (f_idx s) &&
  begun (fst (run (main_store KR toy3 hello) s)).

Lemma full_case : exists x b, reach KR toy3 x /\ (forall j p, In (j, p) (wo_procs x) -> exists a, p = Ret a) /\
  request_ok hello /\ r_ident hello = None /\ r_data hello <> [] /\ fits KR hello /\ number_left KR (wo_fs x) /\ rounds KR hello /\
  req_id KR (z_sha toy3) hello hello_dig /\ unknown KR toy3 (wo_fs x) hello_dig /\ r_meta hello = false /\
  f_silo (wo_fs x) 0 = Some (b, true) /\ f_silo (wo_fs x) 1 = None /\ f_silo (fst (run (main_store KR toy3 hello) (wo_fs x))) 1 <> None.
Proof.
  assert (E : exists s' a, run (job_prog KR toy3 (JStore much)) fs0 = (s', inl a) /\ full_silo s' = true).
  { assert (X : match run (job_prog KR toy3 (JStore much)) fs0 with (s', inl _) => full_silo s' | _ => false end = true) by (vm_cast_no_check (eq_refl true)).
    destruct (run (job_prog KR toy3 (JStore much)) fs0) as [s' [b|]]; try discriminate. eauto. }
  destruct E as (s' & a & E & F). unfold full_silo in F. rewrite !andb_true_iff in F. destruct F as ((F1 & F2) & F3). apply begun_some in F3.
  remember (f_silo (fst (run (main_store KR toy3 hello) s')) 1) as s1 eqn:ES. remember (f_silo s' 0) as t0 eqn:S0. remember (f_silo s' 1) as t1 eqn:S1. symmetry in S0, S1.
  destruct t0 as [[b []]|]; [|discriminate F1|discriminate F1]. destruct t1; [discriminate F1|].
  exists (mkWorld s' [(JStore much, Ret a)]), b. destruct hello_req as (H1 & H2 & H3 & _). cbn [wo_fs wo_procs].
  split. { apply (run_reach KR toy3 fs0 [] (JStore much) s'); [apply job_okb_ok; vm_compute; reflexivity|exists fs0; split; [apply fs0_empty|constructor]|auto]. }
  split. { intros j p [H|[]]. injection H as _ <-. eauto. }
  split; [auto|]. split; [auto|]. split; [auto|]. split; [exact fits_KR|].
  split. { exists 1. split; [reflexivity|]. split; [auto|reflexivity]. }
  split; [reflexivity|]. split; [vm_compute; reflexivity|]. split; [apply no_key; auto|]. split; [reflexivity|]. split; [auto|]. split; [auto|].
  rewrite <- ES. exact F3.
Qed.

(* Silo 3 was made by hand; the store begins silo 0. *)
Definition gap (s : fs) : bool :=
  match f_silo s 3, f_silo s 0 with Some (b, true), Some (d, true) => (len b + len d <? 2000) | _, _ => false end.
Lemma gap_case : exists x a b3 b0, reach KL toy3 x /\ wo_procs x = [(JMk 3, Ret None); (JStore hello, Ret (Some a))] /\
  f_silo (wo_fs x) 3 = Some (b3, true) /\ f_silo (wo_fs x) 0 = Some (b0, true) /\ len b3 + len b0 < c_max KL / 10.
Proof.
  assert (E : exists s1 s2 a, run (job_prog KL toy3 (JMk 3)) fs0 = (s1, inl None) /\ run (job_prog KL toy3 (JStore hello)) s1 = (s2, inl (Some a)) /\ gap s2 = true).
  { assert (X : match run (job_prog KL toy3 (JMk 3)) fs0 with
                | (s1, inl None) => match run (job_prog KL toy3 (JStore hello)) s1 with (s2, inl (Some _)) => gap s2 | _ => false end
                | _ => false end = true) by (vm_cast_no_check (eq_refl true)).
    destruct (run (job_prog KL toy3 (JMk 3)) fs0) as [s1 [[|]|]]; try discriminate.
    destruct (run (job_prog KL toy3 (JStore hello)) s1) as [s2 [[a|]|]] eqn:E2; try discriminate. exists s1, s2, a. auto. }
  destruct E as (s1 & s2 & a & E1 & E2 & G). unfold gap in G.
  destruct (f_silo s2 3) as [[b3 []]|] eqn:F3; [|discriminate G|discriminate G]. destruct (f_silo s2 0) as [[b0 []]|] eqn:F0; [|discriminate G|discriminate G].
  exists (mkWorld s2 [(JMk 3, Ret None); (JStore hello, Ret (Some a))]), a, b3, b0. cbn [wo_fs wo_procs]. split.
  - apply (run_reach KL toy3 s1 [(JMk 3, Ret None)] (JStore hello) s2); [apply hello_req| |auto].
    apply (run_reach KL toy3 fs0 [] (JMk 3) s1 None); [reflexivity|exists fs0; split; [apply fs0_empty|constructor]|auto].
  - split; [auto|]. split; [auto|]. split; [auto|]. change (c_max KL / 10) with 2000. lia.
Qed.
