(* C58: making silos by hand. *)
From Coq Require Import String.
From Verif Require Import Base IndexModel IndexSpec HeaderModel ProgModel StoreModel StoreSpec StoreSysModel StoreToy StoreWit StoreRuns StoreEnd
  LiveSpec LiveToy LiveRuns CmdModel CmdSpec MkModel MkSpec MkMain MkRuns.
Open Scope string_scope.
Open Scope list_scope.
Open Scope N_scope.

(* C58: whatever else runs at the same time, when mksilo has ended well the silo is
   there, *)
Theorem C58_made : forall C L, conf_ok C -> zlib_ok L -> forall x n a,
  reach C L x -> In (JMk n, Ret a) (wo_procs x) -> silo_there C L (wo_fs x) n.
Proof. exact mksilo_made. Qed.
Print Assumptions C58_made.

(* and no other mksilo of that number has ended well. *)
Theorem C58_once : forall C L x n i j a b, reach C L x -> i <> j ->
  nth_error (wo_procs x) i = Some (JMk n, Ret a) -> nth_error (wo_procs x) j = Some (JMk n, Ret b) -> False.
Proof. exact mksilo_once. Qed.
Print Assumptions C58_once.
Example C58_case_made : exists x, reach KL toy3 x /\ wo_procs x = [(JMk 3, Ret None)] /\ f_silo (wo_fs x) 3 <> None.
Proof. exact made_case. Qed.

(* C58: with nobody else at work, a number which is free is made, and nothing else is changed; *)
Theorem C58_free : forall C L, conf_ok C -> zlib_ok L -> zlib_live L -> forall x n,
  reach C L x -> (forall j p, In (j, p) (wo_procs x) -> exists a, p = Ret a) -> info_fits C -> n < 2 ^ 32 - 1 ->
  f_silo (wo_fs x) n = None ->
  exists s' b e, run (main_mksilo C L n) (wo_fs x) = (s', inl tt) /\ silo_there C L s' n /\
    (forall m, f_silo s' m = if m =? n then Some (b, true) else f_silo (wo_fs x) m) /\ f_idx s' = f_idx (wo_fs x) ++ [e] /\ at_rest s'.
Proof. exact mksilo_free. Qed.
Print Assumptions C58_free.
Example C58_case_free : exists x, reach KL toy3 x /\ (forall j p, In (j, p) (wo_procs x) -> exists a, p = Ret a) /\ info_fits KL /\
  3 < 2 ^ 32 - 1 /\ f_silo (wo_fs x) 3 = None.
Proof. exact free_case. Qed.

(* one which is taken, or being worked on, is refused and nothing at all is changed. *)
Theorem C58_taken : forall C L n s, f_silo s n <> None \/ f_hold s n <> None -> run (main_mksilo C L n) s = (s, inr DExit).
Proof. exact mksilo_taken. Qed.
Print Assumptions C58_taken.

(* C58 does not hold in full: of two at the same time the one which fails can leave its
   hold file, and a second index entry, behind. *)
Theorem C58_race_refuted : exists x e, reach K toy x /\ wo_procs x = [(JMk 0, Ret None); (JMk 0, Die DAbort)] /\
  f_hold (wo_fs x) 0 <> None /\ f_idx (wo_fs x) = [e; e].
Proof. exact race_case. Qed.
Print Assumptions C58_race_refuted.

(* C58: the number on the command line, in any of the notations of C, is the one made.  Partial:
   only below 2^32, and not for what is not a number, see below. *)
Theorem C58_number_partial : forall C L t v rest args s,
  written [] [o_h] [] (t :: rest) args -> reads_as t v -> v < 2 ^ 32 ->
  run (mksilo_cmd C L args) s = run (main_mksilo C L v) s.
Proof. exact mksilo_number. Qed.
Print Assumptions C58_number_partial.
Example C58_case_number : written [] [o_h] [] [str "0x1F"] [str "0x1F"] /\ reads_as (str "0x1F") 31.
Proof. exact number_case. Qed.

(* Blanks and a sign are allowed before it; what is made then is the number modulo 2^32. *)
Theorem C58_wraps : forall C L t z rest args s,
  written [] [o_h] [] (t :: rest) args -> signed t z -> (Z.abs z < 2 ^ 64)%Z ->
  run (mksilo_cmd C L args) s = run (main_mksilo C L (Z.to_N (z mod 2 ^ 32))) s.
Proof. exact mksilo_wraps. Qed.
Print Assumptions C58_wraps.
Example C58_case_wraps : written [] [o_h] [] [str "-0x1F"] [str "--"; str "-0x1F"] /\ signed (str "-0x1F") (-31).
Proof. exact wraps_case. Qed.

(* Without an operand, or with an option, nothing is done. *)
Theorem C58_refused : forall C L args s, (forall t rest, ~ written [] [o_h] [] (t :: rest) args) ->
  run (mksilo_cmd C L args) s = (s, inr DExit).
Proof. exact mksilo_refused. Qed.
Print Assumptions C58_refused.
Example C58_case_refused : forall t rest, ~ written [] [o_h] [] (t :: rest) [str "-h"; str "3"].
Proof. exact refused_case. Qed.

(* What is not a number makes a silo all the same, and a number which is too large makes
   another one. *)
Theorem C58_text_refuted : (forall v, ~ reads_as (str "silo") v) /\ (forall v, ~ reads_as (str "12x") v) /\ reads_as (str "4294967301") 4294967301 /\
  forall C L s, run (mksilo_cmd C L [str "silo"]) s = run (main_mksilo C L 0) s /\
    run (mksilo_cmd C L [str "12x"]) s = run (main_mksilo C L 12) s /\
    run (mksilo_cmd C L [str "4294967301"]) s = run (main_mksilo C L 5) s.
Proof. exact (conj no_letters (conj no_suffix (conj big_number texts))). Qed.
Print Assumptions C58_text_refuted.
