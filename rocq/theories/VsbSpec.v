(* Specification of string buffers: what has been appended. *)
From Verif Require Import Base VsbModel.
Open Scope list_scope.
Open Scope N_scope.

Inductive vop :=
| VBcat (d : bytes) | VCat (d : bytes) | VPrintf (d : bytes) | VPutc (c : N)
| VClear | VIndent (i : Z).

Definition vrun1 (alloc : N -> bool) (junk : N -> N) (s : vsb) (o : vop) : res vsb :=
  match o with
  | VBcat d => VSB_bcat alloc junk s d
  | VCat d => VSB_cat alloc junk s d
  | VPrintf d => VSB_printf alloc junk s d
  | VPutc c => VSB_put_byte alloc junk s c
  | VClear => VSB_clear s
  | VIndent i => VSB_indent s i
  end.
Fixpoint vrun (alloc : N -> bool) (junk : N -> N) (s : vsb) (ops : list vop) : res vsb :=
  match ops with
  | [] => Ok s
  | o :: r => let* s' := vrun1 alloc junk s o in vrun alloc junk s' r
  end.

(* Text so far and indentation.  Indentation is added in front of what is
   appended at the beginning of a line. *)
Definition bol (t : bytes) : bool := match rev t with [] => true | c :: _ => c =? 10 end.
Definition pad (t : bytes) (ind : N) : bytes := if bol t then repeat 32 (N.to_nat ind) else [].
Definition put1 (ind : N) (t : bytes) (c : N) : bytes := t ++ pad t ind ++ [c].
Definition vtext1 (st : bytes * N) (o : vop) : bytes * N :=
  let '(t, ind) := st in
  match o with
  | VBcat d => (match d with [] => t | _ => t ++ pad t ind ++ d end, ind)
  | VCat d => (fold_left (put1 ind) d t, ind)
  | VPrintf d => (t ++ pad t ind ++ d, ind)
  | VPutc c => (put1 ind t c, ind)
  | VClear => ([], 0)
  | VIndent i => (t, Z.to_N (Z.of_N ind + i))
  end.
Definition vtext (ops : list vop) : bytes * N := fold_left vtext1 ops ([], 0).

(* no operation makes the indentation negative *)
Fixpoint indents_ok (ind : N) (ops : list vop) : Prop :=
  match ops with
  | [] => True
  | VIndent i :: r => (0 <= Z.of_N ind + i)%Z /\ indents_ok (Z.to_N (Z.of_N ind + i)) r
  | VClear :: r => indents_ok 0 r
  | _ :: r => indents_ok ind r
  end.

(* the longest text at any time stays below n *)
Fixpoint stays_below (n : N) (st : bytes * N) (ops : list vop) : Prop :=
  len (fst st) < n /\
  match ops with
  | [] => True
  | o :: r => stays_below n (vtext1 st o) r
  end.

Definition is_printf (o : vop) : bool := match o with VPrintf _ => true | _ => false end.

(* What the user of a buffer sees when finishing it: the text and its length,
   terminated by NUL; or -1 instead of a length. *)
Definition holds (s : vsb) (t : bytes) : Prop := exists f m,
  VSB_finish s = Ok f /\ VSB_len f = Ok (Some (len t)) /\ VSB_data f = Ok m /\
  firstn (N.to_nat (len t + 1)) m = t ++ [0].
Definition reports (s : vsb) : Prop := exists f, VSB_finish s = Ok f /\ VSB_len f = Ok None.
