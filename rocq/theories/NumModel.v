(* Model of /repo/vnum.c: sizes with a suffix.  The C code calculates with double.

   A double is m * 2^e, an infinity, or NaN.  Every operation gives the exact result
   rounded to 53 binary digits, ties to even, and an infinity from 2^1024 on.  Values
   below 2^-1022 keep more digits here than in C; what is returned for them is 0 in
   both.  The two zeros are not told apart, C does so nowhere in this file. *)
From Coq Require Import String.
From Verif Require Import Base.
Open Scope string_scope.
Open Scope list_scope.
Open Scope Z_scope.

Inductive dbl := Fin (m e : Z) | Inf (neg : bool) | NaN.

(* m / 2^k to the nearest, ties to even *)
Definition rne (m k : Z) : Z :=
  let q := m / 2 ^ k in
  let r := m mod 2 ^ k in
  if 2 * r <? 2 ^ k then q else if 2 ^ k <? 2 * r then q + 1 else if Z.even q then q else q + 1.

Definition rnd (m e : Z) : dbl :=
  let k := Z.log2 (Z.abs m) + 1 - 53 in
  let m' := if k <=? 0 then m else rne m k in
  let e' := if k <=? 0 then e else e + k in
  if m' =? 0 then Fin 0 0
  else if 1024 <=? Z.log2 (Z.abs m') + e' then Inf (m' <? 0) else Fin m' e'.

Definition dmul (x y : dbl) : dbl :=
  match x, y with
  | Fin m e, Fin m' e' => rnd (m * m') (e + e')
  | Fin m _, Inf s | Inf s, Fin m _ => if m =? 0 then NaN else Inf (xorb s (m <? 0))
  | Inf s, Inf s' => Inf (xorb s s')
  | _, _ => NaN
  end.
Definition dadd (x y : dbl) : dbl :=
  match x, y with
  | Fin m e, Fin m' e' => rnd (m * 2 ^ (e - Z.min e e') + m' * 2 ^ (e' - Z.min e e')) (Z.min e e')
  | Fin _ _, Inf s | Inf s, Fin _ _ => Inf s
  | Inf s, Inf s' => if Bool.eqb s s' then Inf s else NaN
  | _, _ => NaN
  end.
Definition dnum (z : Z) : dbl := Fin z 0.
Definition dchar (c : N) : dbl := dnum (Z.of_N c).

(* (uintmax_t)x; undefined if the whole part does not fit *)
Definition to_uintmax (x : dbl) : res N :=
  match x with
  | Fin m e =>
      let z := if 0 <=? e then m * 2 ^ e else Z.quot m (2 ^ (- e)) in
      if (0 <=? z) && (z <? 2 ^ 64) then Ok (Z.to_N z) else UB
  | _ => UB
  end.

(* round(3): to the nearest, ties away from zero *)
Definition dround (x : dbl) : dbl :=
  match x with
  | Fin m e => if 0 <=? e then x else Fin (Z.sgn m * ((2 * Z.abs m + 2 ^ (- e)) / (2 * 2 ^ (- e)))) 0
  | _ => x
  end.

Section Num.
(* pow(10., x) of the C library *)
Variable pow10 : dbl -> dbl.

Fixpoint skip_space (p : bytes) : bytes :=
  match p with
  | c :: r => if is_space c then skip_space r else p
  | [] => []
  end.

(* The sign, vnum.c:65-66 and 83-84 *)
Definition take_sign (p : bytes) : dbl * bytes :=
  match p with
  | c :: r => if (c =? 45)%N then (dnum (-1), r) else if (c =? 43)%N then (dnum 1, r) else (dnum 1, p)
  | [] => (dnum 1, p)
  end.

(* m * 10. + *p - '0' *)
Definition digit_in (m : dbl) (c : N) : dbl := dadd (dadd (dmul m (dnum 10)) (dchar c)) (dnum (-48)).

(* vnum.c:68-78.  [e] and [ne] are doubles in C; they only count down, which is exact up
   to 2^53 characters. *)
Fixpoint mantissa (p : bytes) (m : dbl) (e ne : Z) : dbl * Z * bytes :=
  match p with
  | c :: r =>
      if is_digit c then mantissa r (digit_in m c) ne (if ne =? 0 then ne else ne - 1)
      else if (c =? 46)%N && (ne =? 0) then mantissa r m e (-1)
      else (m, e, p)
  | [] => (m, e, p)
  end.

(* vnum.c:87-88 *)
Fixpoint exponent (p : bytes) (ee : dbl) : dbl * bytes :=
  match p with
  | c :: r => if is_digit c then exponent r (digit_in ee c) else (ee, p)
  | [] => (ee, p)
  end.

(* vnum.c:81-89: sign and value, and what is behind; None for NaN *)
Definition exponent_of (p : bytes) : option (dbl * (dbl * bytes)) :=
  match p with
  | c :: r =>
      if (c =? 101)%N || (c =? 69)%N then
        let (es, r) := take_sign r in
        match r with
        | d :: _ => if is_digit d then Some (es, exponent r (dnum 0)) else None
        | [] => None
        end
      else Some (dnum 1, (dnum 0, p))
  | [] => Some (dnum 1, (dnum 0, p))
  end.

(* VNUMpfx, vnum.c:52-95.  The second part is *t; [] for NULL. *)
Definition VNUMpfx (p : bytes) : dbl * bytes :=
  let p := skip_space p in
  let (ms, p) := take_sign p in
  let '(m, e, p) := mantissa p (dnum 0) 1 0 in
  if 0 <? e then (NaN, []) else
  match exponent_of p with
  | None => (NaN, [])
  | Some (es, (ee, p)) => (dmul (dmul ms m) (pow10 (dadd (dnum e) (dmul es ee))), skip_space p)
  end.

(* vnum.c:122-124 *)
Definition accept_space (p : bytes) : bytes :=
  match p with
  | c :: d :: r => if (c =? 32)%N then d :: r else p
  | _ => p
  end.

(* vnum.c:126-149: the factor, and what is behind it *)
Definition suffix (p : bytes) : Z * bytes :=
  let p := accept_space p in
  match p with
  | c :: r =>
      if (c =? 107)%N || (c =? 75)%N then (2 ^ 10, r)
      else if (c =? 109)%N || (c =? 77)%N then (2 ^ 20, r)
      else if (c =? 103)%N || (c =? 71)%N then (2 ^ 30, r)
      else if (c =? 116)%N || (c =? 84)%N then (2 ^ 40, r)
      else if (c =? 112)%N || (c =? 80)%N then (2 ^ 50, r)
      else (1, p)
  | [] => (1, p)
  end.

(* vnum.c:151-153 *)
Definition drop_b (q : bytes) : bytes :=
  match q with
  | c :: r => if (c =? 98)%N || (c =? 66)%N then r else q
  | [] => q
  end.
Definition is_nil (q : bytes) : bool := match q with [] => true | _ => false end.

(* VNUM_2bytes, vnum.c:99-161: the number, or a message.  Only for rel == 0, which is
   what all callers give. *)
Definition VNUM_2bytes (p : bytes) : res (N + bytes) :=
  match p with
  | [] => Ok (inr (str "Missing number"))
  | _ =>
      let (fval, end_) := VNUMpfx p in
      match fval with
      | NaN => Ok (inr (str "Invalid number"))
      | _ =>
          if is_nil end_ then let* r := to_uintmax fval in Ok (inl r)
          else if bytes_eqb end_ [37%N] then Ok (inr (str "Absolute number required"))
          else
            let (k, q) := suffix end_ in
            let fval := if k =? 1 then fval else dmul fval (dnum k) in
            let q := drop_b q in
            if is_nil q then let* r := to_uintmax (dround fval) in Ok (inl r)
            else Ok (inr (str "Invalid suffix"))
      end
  end.
End Num.
