(* Specification of sizes with an exponent. *)
From Coq Require Import String.
From Verif Require Import Base HeaderSpec NumModel NumSpec.
Open Scope string_scope.
Open Scope list_scope.
Open Scope N_scope.

(* e and a whole number, e.g. e3, E+3 or e-03 *)
Definition exponent_value (s : bytes) (e : Z) : Prop := exists c g x neg,
  lower [c] = str "e" /\ sign g neg /\ numeral x /\ s = c :: g ++ x /\
  e = (if (neg : bool) then - Z.of_N (dec_value x) else Z.of_N (dec_value x))%Z.

(* A size: n * 10^e / 10^d of a unit of k bytes *)
Definition size_exp (s : bytes) (neg : bool) (n : N) (d : nat) (e : Z) (u : bytes) (k : N) : Prop := exists s1 g x y s2,
  spaces s1 /\ sign g neg /\ decimal x n d /\ exponent_value y e /\ spaces s2 /\ unit_of u k /\ s = s1 ++ g ++ x ++ y ++ s2 ++ u.

(* What is expected of pow(10., x) besides: powers up to 10^15 are exact. *)
Definition pow_exact (pow10 : dbl -> dbl) : Prop :=
  forall z, (0 <= z <= 15)%Z -> pow10 (dnum z) = dnum (10 ^ z)%Z.
