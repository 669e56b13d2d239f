(* mksilo in small archives. *)
From Coq Require Import String Permutation.
From Coq Require Import ZifyBool ZifyNat ZifyN.
From Verif Require Import Base BaseLemmas ListLemmas IndexModel IndexSpec HeaderModel HeaderSpec
  ProgModel StoreModel StoreSpec StoreSysModel StoreToy StoreToyOk StoreWit StoreRuns StoreEnd LiveSpec LiveToy LiveMain LiveRuns CmdModel CmdSpec MkModel MkSpec MkMain.
Open Scope string_scope.
Open Scope list_scope.
Open Scope N_scope.

Lemma info_KL : info_fits KL.
Proof. intros n Hn. destruct (fits_small (mkReq false [] [] None []) ltac:(vm_compute; discriminate) n Hn) as (A & B). split; [auto|]. cbn [r_data List.concat] in B. change (len []) with 0 in B. lia. Qed.

Lemma free_case : exists x, reach KL toy3 x /\ (forall j p, In (j, p) (wo_procs x) -> exists a, p = Ret a) /\ info_fits KL /\
  3 < 2 ^ 32 - 1 /\ f_silo (wo_fs x) 3 = None.
Proof.
  exists (mkWorld fs0 []). split; [exists fs0; split; [apply fs0_empty|constructor]|]. split; [intros j p []|]. split; [exact info_KL|]. split; reflexivity.
Qed.

(* one mksilo has made silo 3 *)
Lemma made_case : exists x, reach KL toy3 x /\ wo_procs x = [(JMk 3, Ret None)] /\ f_silo (wo_fs x) 3 <> None.
Proof.
  destruct free_case as (x & R & HR & FI & LT & FN).
  destruct (mksilo_free KL toy3 KL_ok toy3_ok toy3_live (mkWorld fs0 []) 3) as (s' & b & e & E & T & S & _).
  - exists fs0; split; [apply fs0_empty|constructor].
  - intros j p [].
  - exact info_KL.
  - reflexivity.
  - reflexivity.
  - exists (mkWorld s' [(JMk 3, Ret None)]). split; [|split; [auto|cbn [wo_fs]; rewrite S; discriminate]].
    apply (run_reach KL toy3 fs0 [] (JMk 3) s' None); [reflexivity|exists fs0; split; [apply fs0_empty|constructor]|]. cbn [job_prog]. rewrite run_bind.
    change fs0 with (wo_fs (mkWorld fs0 [])). rewrite E. auto.
Qed.

(* Two at the same time: the second has looked for the silo, the first makes it, the
   second goes on. *)
Definition is_stathold (c : call) : bool := match c with CStatHold _ => true | _ => false end.
Definition left_over (s : fs) : bool :=
  match f_hold s 0, f_idx s with Some _, [a; b] => ent_eqb a b | _, _ => false end.
Lemma race_case : exists x e, reach K toy x /\ wo_procs x = [(JMk 0, Ret None); (JMk 0, Die DAbort)] /\
  f_hold (wo_fs x) 0 <> None /\ f_idx (wo_fs x) = [e; e].
Proof.
  destruct (go_all [PA (AStart (JMk 0)); PA (AStart (JMk 0)); PRun 1 is_stathold; PRun 0 never; PRun 1 never]
    [inl None; inr DAbort] (fun x => left_over (wo_fs x))) as (x & R & E & O).
  - vm_cast_no_check (eq_refl true).
  - reflexivity.
  - unfold left_over in O. destruct (f_hold (wo_fs x) 0) eqn:H; [|discriminate]. destruct (f_idx (wo_fs x)) as [|a [|b0 [|c l]]] eqn:EI; try discriminate.
    apply ent_eqb_ok in O. subst b0. exists x, a. split; [auto|]. split; [exact E|]. split; [congruence|auto].
Qed.

(* Texts which are not such numbers. *)
Lemma num_cons b c l v : numeral b (c :: l) v -> forall x, In x (c :: l) -> exists d, digit_of x d /\ d < b.
Proof.
  intros H. remember (c :: l) as m eqn:E. clear E c l. induction H as [|l v c d H IH D LT]; intros x Hx; [destruct Hx|].
  apply in_app_or in Hx. destruct Hx as [Hx|[<-|[]]]; eauto.
Qed.
Lemma no_letters : forall v, ~ reads_as (str "silo") v.
Proof.
  intros v H. inversion H as [c l v' NC N E| |]; subst. destruct (num_cons _ _ _ _ N 115) as (d & D & LT); [left; auto|]. inversion D; lia.
Qed.
Lemma no_suffix : forall v, ~ reads_as (str "12x") v.
Proof.
  intros v H. inversion H as [c l v' NC N E| |]; subst. destruct (num_cons _ _ _ _ N 120) as (d & D & LT); [cbn; auto|]. inversion D; lia.
Qed.
Lemma texts C L s : run (mksilo_cmd C L [str "silo"]) s = run (main_mksilo C L 0) s /\
  run (mksilo_cmd C L [str "12x"]) s = run (main_mksilo C L 12) s /\
  run (mksilo_cmd C L [str "4294967301"]) s = run (main_mksilo C L 5) s.
Proof. repeat split. Qed.
Lemma big_number : reads_as (str "4294967301") 4294967301.
Proof.
  change 4294967301 with ((((((((((0 * 10 + 4) * 10 + 2) * 10 + 9) * 10 + 4) * 10 + 9) * 10 + 6) * 10 + 7) * 10 + 3) * 10 + 0) * 10 + 1).
  apply (ra_dec 52); [discriminate|].
  change (52 :: _) with ((((((((((([] ++ [48 + 4]) ++ [48 + 2]) ++ [48 + 9]) ++ [48 + 4]) ++ [48 + 9]) ++ [48 + 6]) ++ [48 + 7]) ++ [48 + 3]) ++ [48 + 0]) ++ [48 + 1])).
  repeat (apply nu_snoc; [|apply dg_09; reflexivity|reflexivity]). apply nu_nil.
Qed.

Lemma number_case : written [] [o_h] [] [str "0x1F"] [str "0x1F"] /\ reads_as (str "0x1F") 31.
Proof.
  split; [apply wr_end; cbn; discriminate|]. apply (ra_hex 120 [49; 70]); [auto|discriminate|].
  change [49; 70] with (([] ++ [48 + 1]) ++ [55 + 15]). change 31 with ((0 * 16 + 1) * 16 + 15).
  apply nu_snoc; [apply nu_snoc; [apply nu_nil|apply dg_09; reflexivity|reflexivity]|apply dg_AF; split; [discriminate|reflexivity]|reflexivity].
Qed.
Lemma refused_case : forall t rest, ~ written [] [o_h] [] (t :: rest) [str "-h"; str "3"].
Proof. intros t rest W. apply mksilo_getopt in W. discriminate. Qed.
Lemma wraps_case : written [] [o_h] [] [str "-0x1F"] [str "--"; str "-0x1F"] /\ signed (str "-0x1F") (-31).
Proof. split; [apply wr_dashes|]. apply (sd_minus (str "0x1F") 31). apply number_case. Qed.
