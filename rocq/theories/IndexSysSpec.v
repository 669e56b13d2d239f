(* What histories of concurrent index operations mean. *)
From Verif Require Import Base IndexModel IndexSpec IndexSysModel.
Open Scope N_scope.

(* well-formed events *)
Definition ok_ev (e : hev) : Prop :=
  match e with
  | EInsert key flags silo offset cont => ok_op (OInsert key flags silo offset cont)
  | _ => True
  end.

(* the records inserted by a history *)
Fixpoint ideal_evs (evs : list hev) : list ixent :=
  match evs with
  | [] => []
  | EInsert key flags silo offset cont :: r =>
      ideal key flags silo offset cont :: ideal_evs r
  | _ :: r => ideal_evs r
  end.
