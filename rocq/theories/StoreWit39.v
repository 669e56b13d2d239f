(* A store which fails: the text of the total length is longer than the space kept
   for it when the second segment was begun. *)
From Coq Require Import String.
From Coq Require Import ZifyBool ZifyNat ZifyN.
From Verif Require Import Base IndexModel HeaderModel GzipModel ProgModel StoreModel StoreSpec StoreSysModel StoreToy StoreToyOk StoreWit StoreRuns.
Open Scope string_scope.
Open Scope list_scope.
Open Scope N_scope.

Definition K39 : conf := toy_conf 40000.
Lemma K39_ok : conf_ok K39.
Proof. apply toy_conf_ok. lia. Qed.

Definition zeros : request :=
  mkReq false (str "text/plain") [] None (repeat 97 (N.to_nat 38770) :: repeat (repeat 0 (N.to_nat 9805)) 103).
Lemma zeros_abort : exists x, reach K39 toy_const x /\ wo_procs x = [(JStore zeros, Die DAbort)] /\ f_silo (wo_fs x) 0 <> None /\ f_silo (wo_fs x) 1 = None.
Proof.
  destruct (go_obs K39 toy_const lim (each [JStore zeros] 0)
    (fun x => died 0 DAbort x && match f_silo (wo_fs x) 0, f_silo (wo_fs x) 1 with Some _, None => true | _, _ => false end)) as (x & R & O & J).
  - exact_no_check (eq_refl true).
  - rewrite andb_true_iff in O. destruct O as (O1 & O2). apply died_ok in O1. exists x. split; [auto|]. split.
    + apply (procs_are x [JStore zeros] [inr DAbort]); auto. intros [|[|i]] z Hz; cbn in Hz; try discriminate. injection Hz as <-. auto.
    + destruct (f_silo (wo_fs x) 0); [|discriminate]. destruct (f_silo (wo_fs x) 1); [discriminate|]. split; [discriminate|auto].
Qed.
