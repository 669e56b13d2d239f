(* Any number of store, get and mksilo commands running at the same time on an archive:
   each is a program of StoreModel, one system call of one of them is one step,
   and each can be killed at any time, also in the middle of writing. *)
From Coq Require Import Permutation.
From Verif Require Import Base IndexModel ProgModel StoreModel StoreSpec.
Open Scope N_scope.

Inductive job := JStore (r : request) | JGet (zip : bool) (id : bytes) | JMk (silono : N).

Definition job_prog (C : conf) (L : zlib) (j : job) : prog (option bytes) :=
  match j with
  | JStore r => let! id := main_store C L r in Ret (Some id)
  | JGet z id => main_get C L z id
  | JMk n => let! _ := main_mksilo C L n in Ret None
  end.

(* the last silo number is the end of the model *)
Definition job_ok (j : job) : Prop := match j with JStore r => request_ok r | JGet _ _ => True | JMk n => n < 2 ^ 32 - 1 end.

Record world := mkWorld { wo_fs : fs; wo_procs : list (job * prog (option bytes)) }.

(* What is on disk after a call which was interrupted. *)
Inductive torn : call -> fs -> fs -> Prop :=
| torn_write n d d' s : (exists r, d = d' ++ r) -> torn (CWrite n d) s (fst (exec (CWrite n d') s))
| torn_pwrite n off d d' s : (exists r, d = d' ++ r) ->
    torn (CPwrite n off d) s (fst (exec (CPwrite n off d') s))
| torn_append n d d' s : (exists r, d = d' ++ r) -> torn (CAppend n d) s (fst (exec (CAppend n d') s)).

Definition set_idx (s : fs) (l : list ixent) : fs :=
  mkFs (f_silo s) (f_hold s) l (f_cache s) (f_clock s).
Definition set_clock (s : fs) (d : bytes) : fs :=
  mkFs (f_silo s) (f_hold s) (f_idx s) (f_cache s) d.

(* What can be seen of a process: which one made which call, and whether it got
   what it asked for (only told for the creation of a hold). *)
Record event := mkEv { ev_proc : nat; ev_call : call; ev_ok : bool }.
Definition created (c : call) : ans c -> bool :=
  match c return ans c -> bool with CCreat _ => fun a => a | _ => fun _ => true end.

Section Sys.
Variable C : conf.
Variable L : zlib.

Inductive lstep : world -> option event -> world -> Prop :=
(* a process makes its next system call *)
| st_call s ps1 ps2 j c k :
    lstep (mkWorld s (ps1 ++ (j, Call c k) :: ps2))
          (Some (mkEv (length ps1) c (created c (snd (exec c s)))))
          (mkWorld (fst (exec c s)) (ps1 ++ (j, k (snd (exec c s))) :: ps2))
(* a process is killed before its next system call, *)
| st_kill s ps1 ps2 j c k :
    lstep (mkWorld s (ps1 ++ (j, Call c k) :: ps2)) None (mkWorld s (ps1 ++ (j, Die DKill) :: ps2))
(* or in the middle of it *)
| st_torn s s' ps1 ps2 j c k : torn c s s' ->
    lstep (mkWorld s (ps1 ++ (j, Call c k) :: ps2))
          (Some (mkEv (length ps1) c true)) (mkWorld s' (ps1 ++ (j, Die DKill) :: ps2))
(* somebody starts a command *)
| st_start s ps j : job_ok j -> lstep (mkWorld s ps) None (mkWorld s (ps ++ [(j, job_prog C L j)]))
(* time goes by *)
| st_clock s ps d : date_ok d -> lstep (mkWorld s ps) None (mkWorld (set_clock s d) ps)
(* housekeeping sorts the index *)
| st_sort s ps l : Permutation l (f_idx s) -> lstep (mkWorld s ps) None (mkWorld (set_idx s l) ps)
(* somebody write protects a silo nobody is working on *)
| st_protect s ps n b w : f_hold s n = None -> f_silo s n = Some (b, w) ->
    lstep (mkWorld s ps) None (mkWorld (set_silo s n (Some (b, false))) ps).

Definition step (x y : world) : Prop := exists l, lstep x l y.

Inductive steps : world -> world -> Prop :=
| steps_refl a : steps a a
| steps_step a b c : steps a b -> step b c -> steps a c.

(* An archive nobody has used yet. *)
Definition empty_fs (s : fs) : Prop :=
  (forall n, f_silo s n = None) /\ (forall n, f_hold s n = None) /\ f_idx s = [] /\
  f_cache s = None /\ date_ok (f_clock s).

(* The same with the calls made so far, in order. *)
Inductive history : list event -> world -> Prop :=
| hi_start s : empty_fs s -> history [] (mkWorld s [])
| hi_call tr x e y : history tr x -> lstep x (Some e) y -> history (tr ++ [e]) y
| hi_other tr x y : history tr x -> lstep x None y -> history tr y.

Definition reach (x : world) : Prop := exists s, empty_fs s /\ steps (mkWorld s []) x.

(* From x to y with those calls, all states on the way satisfying P. *)
Inductive trace (P : fs -> Prop) (x : world) : list event -> world -> Prop :=
| tr_start : P (wo_fs x) -> trace P x [] x
| tr_call tr y e z : trace P x tr y -> lstep y (Some e) z -> P (wo_fs z) -> trace P x (tr ++ [e]) z
| tr_other tr y z : trace P x tr y -> lstep y None z -> P (wo_fs z) -> trace P x tr z.
End Sys.

(* Calls which change neither silos nor index; calls which change nothing at all. *)
Definition harmless (c : call) : Prop :=
  match c with CLink _ | CAppend _ _ | CIdxIns _ => False | _ => True end.
Definition only_looks (c : call) : Prop :=
  match c with
  | CCreat _ | CWrite _ _ | CPwrite _ _ _ | CLink _ | CUnlink _ | CAppend _ _ | CWriteCache _ _ | CIdxIns _ => False
  | _ => True
  end.

(* Locks.  A call is work on number n if it changes the hold file, the silo file
   or the index entries of that number. *)
Definition works_on (c : call) (n : N) : Prop :=
  match c with
  | CWrite m _ | CPwrite m _ _ | CLink m | CUnlink m | CAppend m _ => m = n
  | CIdxIns e => e_silo e = n
  | _ => False
  end.

(* Who has number n: the last to create the hold file, until they remove it. *)
Definition take (n : N) (h : option nat) (e : event) : option nat :=
  match ev_call e with
  | CCreat m => if (m =? n) && ev_ok e then Some (ev_proc e) else h
  | CUnlink m => if m =? n then None else h
  | _ => h
  end.
Definition holder (tr : list event) (n : N) : option nat := fold_left (take n) tr None.
