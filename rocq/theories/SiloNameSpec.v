(* Specification for silo names and iteration. *)
From Coq Require Import String.
From Verif Require Import Base SiloNameModel.
Open Scope N_scope.

(* silo.basename cannot contain '/' (aardwarc.c:133-138) *)
Definition ok_base (b : basename) : Prop := ~ In 47 (b_pre b) /\ ~ In 47 (b_post b).

(* silo numbers 0, 1, ... k-1 *)
Definition upto (k : N) : list N := map N.of_nat (seq 0 (N.to_nat k)).

(* Collecting callback: remembers every call, answers nonzero for silos in
   [stop]. *)
Definition visit (stop : N -> bool) (acc : list (bytes * N)) (p : bytes) (u : N)
  : list (bytes * N) * Z := (acc ++ [(p, u)], if stop u then 1%Z else 0%Z).

(* up to and including the first element satisfying stop *)
Fixpoint until (stop : N -> bool) (l : list N) : list N :=
  match l with
  | [] => []
  | x :: r => if stop x then [x] else x :: until stop r
  end.
