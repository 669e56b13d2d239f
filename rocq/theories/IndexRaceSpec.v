(* Side conditions under which the finer interleavings are harmless. *)
From Verif Require Import Base IndexModel IndexSpec IndexSysModel IndexSysSpec IndexRaceModel.
Open Scope N_scope.

Definition ok_rev (e : rev) : Prop :=
  match e with
  | RSys e => ok_ev e
  | ROpen key flags silo offset cont => ok_op (OInsert key flags silo offset cont)
  | RWrite _ => True
  end.

(* Number of inserts in a schedule. *)
Fixpoint rinserts (evs : list rev) : N :=
  match evs with
  | [] => 0
  | RSys (EInsert _ _ _ _ _) :: r => 1 + rinserts r
  | RSys _ :: r => rinserts r
  | ROpen _ _ _ _ _ :: r => 1 + rinserts r
  | RWrite _ :: r => rinserts r
  end.

(* Every write(2) of an insert happens while the file it goes to still is the
   appendix, i.e. before a housekeeper has taken it. *)
Fixpoint timely (id_size sort_size : N) (z : rsys) (evs : list rev) : Prop :=
  match evs with
  | [] => True
  | e :: r =>
      match e with
      | RWrite k => forall p, nth_error (z_wr z) k = Some (Some p) ->
                              f_app (y_fs (z_sys z)) = Some (p_ino p)
      | _ => True
      end /\
      match rsys_step id_size sort_size z e with
      | Ok z' => timely id_size sort_size z' r
      | _ => True
      end
  end.

(* No housekeeper removes the housekeep file. *)
Fixpoint no_unlink (id_size sort_size : N) (y : hsys) (evs : list hev) : Prop :=
  match evs with
  | [] => True
  | e :: r =>
      match e with
      | EStep k => forall a, nth_error (y_pc y) k <> Some (HUnlinkHk a)
      | _ => True
      end /\
      match sys_step id_size sort_size y e with
      | Ok y' => no_unlink id_size sort_size y' r
      | _ => True
      end
  end.
