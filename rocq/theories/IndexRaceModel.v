(* Finer interleavings than IndexSysModel.v: IDX_Insert as two system calls,
   and lookups which open the three files one after the other. *)
From Verif Require Import Base IndexModel IndexSpec IndexSysModel.
Open Scope N_scope.

(* An inserting process between open(2) (index.c:242-244) and write(2)
   (index.c:245): the inode behind its file descriptor, the record, and what
   the record means. *)
Record pend := mkPend { p_ino : nat; p_rec : bytes; p_ent : ixent }.

(* z_done: the entries whose IDX_Insert has returned (history variable). *)
Record rsys := mkR { z_sys : hsys; z_wr : list (option pend); z_done : list ixent }.

Inductive rev :=
| RSys (e : hev)        (* anything of IndexSysModel; an EInsert there is an
                           uninterrupted IDX_Insert *)
| ROpen (key : bytes) (flags silo offset : N) (cont : option bytes)
                        (* a process in IDX_Insert makes the record and opens
                           the appendix, index.c:232-244 *)
| RWrite (k : nat).     (* inserting process k writes and returns, 245-248 *)

Definition rsys_step (id_size sort_size : N) (z : rsys) (e : rev) : res rsys :=
  match e with
  | RSys e =>
      let* y := sys_step id_size sort_size (z_sys z) e in
      Ok (mkR y
            (match e with ECrash => [] | _ => z_wr z end)
            (match e with
             | EInsert key flags silo offset cont =>
                 z_done z ++ [ideal key flags silo offset cont]
             | _ => z_done z
             end))
  | ROpen key flags silo offset cont =>
      let* _ := guard (16 <=? id_size) in
      let* r := idx_record key flags silo offset cont in
      let '(st, i) := open_append (y_fs (z_sys z)) in
      Ok (mkR (mkSys st (y_pc (z_sys z)))
              (z_wr z ++ [Some (mkPend i r (ideal key flags silo offset cont))])
              (z_done z))
  | RWrite k =>
      match nth_error (z_wr z) k with
      | Some (Some p) =>
          Ok (mkR (mkSys (write_append (y_fs (z_sys z)) (p_ino p) (p_rec p)) (y_pc (z_sys z)))
                  (set_nth k None (z_wr z)) (z_done z ++ [p_ent p]))
      | _ => Ok z
      end
  end.

Fixpoint rsys_run (id_size sort_size : N) (z : rsys) (evs : list rev) : res rsys :=
  match evs with
  | [] => Ok z
  | e :: r => let* z' := rsys_step id_size sort_size z e in
              rsys_run id_size sort_size z' r
  end.

(* What a lookup sees that opens the sorted file in state s0, the appendix in
   s1 and the housekeep file in s2 (index.c:427-433 opens them one at a time
   in this order).  Each file is read at one instant: the sorted file is never
   modified in place, the others only grow. *)
Definition seen (s0 s1 s2 : ifs) : ifs :=
  mkIfs (f_sorted s0)
        (match f_app s1 with Some _ => Some O | None => None end)
        (match f_hk s2 with Some _ => Some 1%nat | None => None end)
        [ match app_data s1 with Some d => d | None => [] end;
          match hk_data s2 with Some d => d | None => [] end ]
        false.

(* lookup with the three files opened at three different times *)
Definition lookup3 (s0 s1 s2 : ifs) (key : option bytes) : res (list ixent) :=
  lookup (seen s0 s1 s2) key.
