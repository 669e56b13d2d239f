(* Model of /repo/silo.c: names of silos and iterating over them. *)
From Coq Require Import String.
From Verif Require Import Base.
Open Scope string_scope.
Open Scope list_scope.
Open Scope N_scope.

(* numpart, silo.c:57-66.  [num] is an unsigned; the fuel is larger than the
   number of levels. *)
Fixpoint numpart_f (fuel : nat) (lvl num : N) : bytes :=
  match fuel with
  | O => []
  | S f =>
      (if 100 <=? num then numpart_f f (lvl + 1) (num / 100)
       else dec lvl ++ [47]) ++
      (if 0 <? lvl then decpad 2 (num mod 100) ++ [47] else [])
  end.
Definition numpart (lvl num : N) : bytes := numpart_f (S (N.to_nat (N.log2 num))) lvl num.

(* aa->silo_basename is a printf(3) pattern with one %u-compatible conversion
   and no '/' (aardwarc.c:121-138); modelled is the form
   pre%0<width>upost.  The default is "%08u.warc.gz". *)
Record basename := mkBase { b_pre : bytes; b_width : nat; b_post : bytes }.
Definition default_basename : basename := mkBase [] 8 (str ".warc.gz").
Definition fmt_base (b : basename) (n : N) : bytes :=
  b_pre b ++ decpad (b_width b) n ++ b_post b.

(* Silo_Filename, silo.c:68-83 *)
Definition Silo_Filename (dirname : bytes) (b : basename) (number : N) (hold : bool) : bytes :=
  dirname ++ numpart 0 number ++ fmt_base b number ++ (if hold then str ".hold" else []).

(* The directory Silo_Iter looks for, silo.c:96-100 *)
Definition Silo_Dirname (dirname : bytes) (number : N) : bytes :=
  dirname ++ numpart 0 number.

(* Silo_Iter, silo.c:85-113.  [noent p]: stat(2) fails with ENOENT; [reg p]:
   p is a regular file; [func s path u]: the callback, giving its new state
   and return value.  u is a uint32_t and wraps.  Fuel: rounds allowed. *)
Section Iter.
Context {S : Type}.
Variable noent reg : bytes -> bool.
Variable func : S -> bytes -> N -> S * Z.
Fixpoint silo_iter_loop (fuel : nat) (dirname : bytes) (b : basename) (u : N) (s : S) : res (S * Z) :=
  match fuel with
  | O => Fuel
  | Datatypes.S f =>
      if noent (Silo_Dirname dirname u) then Ok (s, 0%Z)
      else
        let p := Silo_Filename dirname b u false in
        let '(s', retval) := if reg p then func s p u else (s, 0%Z) in
        if (retval =? 0)%Z then silo_iter_loop f dirname b ((u + 1) mod 2 ^ 32) s'
        else Ok (s', 0%Z)
  end.
Definition Silo_Iter (fuel : nat) (dirname : bytes) (b : basename) (s : S) : res (S * Z) :=
  silo_iter_loop fuel dirname b 0 s.
End Iter.
