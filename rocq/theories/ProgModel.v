(* Programs which make system calls on an archive.  A program is a tree: a
   result, the end of the process, or a system call with what is done with the
   answer.  One system call is one atomic step. *)
From Verif Require Import Base IndexModel IndexSpec GzipModel.
Open Scope N_scope.

(* What is on disk.  Silo files and hold files are named by their number (that
   different numbers have different names, and holds do not collide with silos,
   is C18).  The flag of a silo says whether its owner may write it.  The index
   is the list of entries put in (what IDX_Insert and IDX_Iter make of it is the
   subject of C02-C13).  [f_clock] is what Header_Set_Date would print now. *)
Record fs := mkFs {
  f_silo : N -> option (bytes * bool);
  f_hold : N -> option bytes;
  f_idx : list ixent;
  f_cache : option (N * N);
  f_clock : bytes }.

Definition upd {A} (f : N -> A) (n : N) (a : A) : N -> A := fun m => if m =? n then a else f m.

Inductive call :=
| CTime                                  (* time(3), gmtime_r(3), strftime(3) *)
| CStat (n : N)                          (* stat(2) or fstat(2) of a silo *)
| CStatHold (n : N)                      (* stat(2) of a hold *)
| CCreat (n : N)                         (* open(2) of a hold, O_CREAT|O_EXCL *)
| CWrite (n : N) (d : bytes)             (* write(2) to a hold, at its end *)
| CPwrite (n off : N) (d : bytes)        (* pwrite(2) or lseek(2)+write(2) to a hold *)
| CRead (n off k : N)                    (* lseek(2)+read(2) or mmap(2) of a hold *)
| CLink (n : N)                          (* link(2) hold to silo *)
| CUnlink (n : N)                        (* unlink(2) of a hold *)
| COpen (n : N)                          (* open(2) of a silo, O_WRONLY|O_APPEND *)
| CSeekEnd (n : N)                       (* lseek(2) to the end of a silo *)
| CAppend (n : N) (d : bytes)            (* writev(2) to a silo, O_APPEND *)
| CReadCache | CWriteCache (a b : N)     (* the 8 bytes of _.cache *)
| CIdxIns (e : ixent)                    (* IDX_Insert *)
| CIdxIter (k : bytes)                   (* IDX_Iter: everything it would report *)
| CReadSilo (n : N).                     (* open(2) and read(2) of a silo *)

Definition ans (c : call) : Type :=
  match c with
  | CTime => bytes
  | CStat _ => option (N * bool)
  | CStatHold _ => bool
  | CCreat _ => bool
  | CWrite _ _ => unit
  | CPwrite _ _ _ => unit
  | CRead _ _ _ => bytes
  | CLink _ => bool
  | CUnlink _ => unit
  | COpen _ => bool
  | CSeekEnd _ => N
  | CAppend _ _ => unit
  | CReadCache => option (N * N)
  | CWriteCache _ _ => unit
  | CIdxIns _ => unit
  | CIdxIter _ => list ixent
  | CReadSilo _ => option bytes
  end.

(* Which entries IDX_Iter reports (see [asked] in IndexSpec). *)
Definition askedb (k : bytes) (e : ixent) : bool :=
  let p := firstn 24 (lower k) in bytes_eqb (firstn (length p) (e_key e)) p.

Definition hold_of (s : fs) (n : N) : bytes := match f_hold s n with Some d => d | None => [] end.
Definition silo_of (s : fs) (n : N) : bytes := match f_silo s n with Some (d, _) => d | None => [] end.

Definition set_hold (s : fs) (n : N) (h : option bytes) : fs :=
  mkFs (f_silo s) (upd (f_hold s) n h) (f_idx s) (f_cache s) (f_clock s).
Definition set_silo (s : fs) (n : N) (x : option (bytes * bool)) : fs :=
  mkFs (upd (f_silo s) n x) (f_hold s) (f_idx s) (f_cache s) (f_clock s).

(* The effect of a call.  Calls on files which do not exist change nothing; the
   programs below never make them. *)
Definition exec (c : call) (s : fs) : fs * ans c :=
  match c return fs * ans c with
  | CTime => (s, f_clock s)
  | CStat n => (s, match f_silo s n with Some (d, w) => Some (len d, w) | None => None end)
  | CStatHold n => (s, match f_hold s n with Some _ => true | None => false end)
  | CCreat n => match f_hold s n with
                | Some _ => (s, false)
                | None => (set_hold s n (Some []), true)
                end
  | CWrite n d => (set_hold s n (Some (hold_of s n ++ d)), tt)
  | CPwrite n off d => (set_hold s n (Some (file_write (hold_of s n) off d)), tt)
  | CRead n off k => (s, file_read (hold_of s n) off k)
  | CLink n => match f_silo s n with
               | Some _ => (s, false)
               | None => (set_silo s n (Some (hold_of s n, true)), true)
               end
  | CUnlink n => (set_hold s n None, tt)
  | COpen n => (s, match f_silo s n with Some (_, w) => w | None => false end)
  | CSeekEnd n => (s, len (silo_of s n))
  | CAppend n d => (match f_silo s n with
                    | Some (b, w) => set_silo s n (Some (b ++ d, w))
                    | None => s
                    end, tt)
  | CReadCache => (s, f_cache s)
  | CWriteCache a b => (mkFs (f_silo s) (f_hold s) (f_idx s) (Some (a, b)) (f_clock s), tt)
  | CIdxIns e => (mkFs (f_silo s) (f_hold s) (f_idx s ++ [e]) (f_cache s) (f_clock s), tt)
  | CIdxIter k => (s, filter (askedb k) (f_idx s))
  | CReadSilo n => (s, match f_silo s n with Some (d, _) => Some d | None => None end)
  end.

(* Why a process ended without a result: an assertion failed, undefined
   behaviour, out of fuel, exit(1), or killed from outside. *)
Inductive death := DAbort | DUB | DFuel | DExit | DKill.

Inductive prog (A : Type) : Type :=
| Ret (a : A)
| Die (d : death)
| Call (c : call) (k : ans c -> prog A).
Arguments Ret {A} a.
Arguments Die {A} d.
Arguments Call {A} c k.

Fixpoint bindp {A B} (p : prog A) (f : A -> prog B) : prog B :=
  match p with
  | Ret a => f a
  | Die d => Die d
  | Call c k => Call c (fun a => bindp (k a) f)
  end.
Notation "'let!' x ':=' r 'in' k" := (bindp r (fun x => k))
  (at level 200, x pattern, r at level 100, k at level 200).

Definition lift {A} (r : res A) : prog A :=
  match r with Ok a => Ret a | Abort => Die DAbort | UB => Die DUB | Fuel => Die DFuel end.
Definition assert (b : bool) : prog unit := if b then Ret tt else Die DAbort.
Definition sys (c : call) : prog (ans c) := Call c (fun a => Ret a).

(* One process alone, from start to end. *)
Fixpoint run {A} (p : prog A) (s : fs) : fs * (A + death) :=
  match p with
  | Ret a => (s, inl a)
  | Die d => (s, inr d)
  | Call c k => let '(s', a) := exec c s in run (k a) s'
  end.
