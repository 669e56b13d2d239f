(* When a store may begin a new silo. *)
From Verif Require Import Base IndexModel IndexSpec ProgModel StoreModel.
Open Scope list_scope.
Open Scope N_scope.

(* If silo n was begun between s and s', the object id is in it, and none of the silos
   with smaller numbers could have taken what takes len b' - e_off e bytes there:
   fewer bytes are free in it than that and 160 more, or fewer than there are
   silos.  Left out are those which are write protected or have a write protected one
   before them. *)
Definition tight (C : conf) (s s' : fs) (id : bytes) : Prop := forall n b' w',
  f_silo s n = None -> f_silo s' n = Some (b', w') ->
  exists e, In e (f_idx s') /\ e_silo e = n /\ e_key e = pad 24 id /\ e_off e < len b' /\
    forall m b, m < n -> f_silo s m = Some (b, true) ->
      (forall k d w, k < m -> f_silo s k = Some (d, w) -> w = true) ->
      c_max C < len b + (len b' - e_off e) + 160 \/ c_max C < len b + n.
