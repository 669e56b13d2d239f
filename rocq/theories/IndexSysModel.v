(* Model of several processes working on the index files at the same time,
   with crashes.  One event is one system call of one process (IDX_Insert's
   open+write is one event here; IndexRaceModel.v splits it). *)
From Verif Require Import Base IndexModel IndexSpec.
Open Scope N_scope.

(* The files, and the program counters of the processes inside IDX_Resort
   (index.c:616-653). *)
Record hsys := mkSys { y_fs : ifs; y_pc : list hk_pc }.

Inductive hev :=
| EInsert (key : bytes) (flags silo offset : N) (cont : option bytes)
                        (* some process runs IDX_Insert, index.c:224-249 *)
| EStart                (* some process calls IDX_Resort, index.c:616 *)
| EStep (k : nat)       (* process k makes its next system call *)
| ECrash.               (* the machine stops; the operator removes the stale
                           hold file *)

Definition unhold (st : ifs) : ifs :=
  mkIfs (f_sorted st) (f_app st) (f_hk st) (f_ino st) false.

(* One event; [Abort] only if the insert itself fails. *)
Definition sys_step (id_size sort_size : N) (y : hsys) (e : hev) : res hsys :=
  match e with
  | EInsert key flags silo offset cont =>
      let* st := IDX_Insert id_size (y_fs y) key flags silo offset cont in
      Ok (mkSys st (y_pc y))
  | EStart => Ok (mkSys (y_fs y) (y_pc y ++ [HHold]))
  | EStep k =>
      match nth_error (y_pc y) k with
      | None => Ok y
      | Some pc => let '(st, pc') := hk_step sort_size (y_fs y) pc in
                   Ok (mkSys st (set_nth k pc' (y_pc y)))
      end
  | ECrash => Ok (mkSys (unhold (y_fs y)) [])
  end.

Fixpoint sys_run (id_size sort_size : N) (y : hsys) (evs : list hev) : res hsys :=
  match evs with
  | [] => Ok y
  | e :: r => let* y' := sys_step id_size sort_size y e in
              sys_run id_size sort_size y' r
  end.
