(* Specification of sizes with a suffix. *)
From Coq Require Import String.
From Verif Require Import Base HeaderSpec NumModel.
Open Scope string_scope.
Open Scope list_scope.
Open Scope N_scope.

Definition spaces (s : bytes) : Prop := Forall (fun c => is_space c = true) s.

(* The suffixes, in upper or lower case *)
Definition unit_of (u : bytes) (k : N) : Prop := In (lower u, k)
  [(str "", 1); (str "b", 1); (str "k", 2 ^ 10); (str "kb", 2 ^ 10); (str "m", 2 ^ 20); (str "mb", 2 ^ 20);
   (str "g", 2 ^ 30); (str "gb", 2 ^ 30); (str "t", 2 ^ 40); (str "tb", 2 ^ 40); (str "p", 2 ^ 50); (str "pb", 2 ^ 50)].

(* Digits, with or without a point among them: all digits as one number, and how many
   of them are behind the point *)
Definition decimal (s : bytes) (n : N) (d : nat) : Prop := exists a b,
  a ++ b <> [] /\ Forall (fun c => is_digit c = true) (a ++ b) /\ n = dec_value (a ++ b) /\ d = List.length b /\
  (s = a ++ str "." ++ b \/ s = a /\ b = []).

Definition sign (s : bytes) (neg : bool) : Prop := (s = [] \/ s = str "+") /\ neg = false \/ s = str "-" /\ neg = true.

(* A size: n / 10^d of a unit of k bytes *)
Definition size (s : bytes) (neg : bool) (n : N) (d : nat) (u : bytes) (k : N) : Prop := exists s1 g x s2,
  spaces s1 /\ sign g neg /\ decimal x n d /\ spaces s2 /\ unit_of u k /\ s = s1 ++ g ++ x ++ s2 ++ u.

(* The same with an exponent *)
Definition exponent_part (s : bytes) : Prop := exists c g x neg,
  lower [c] = str "e" /\ sign g neg /\ numeral x /\ s = c :: g ++ x.
Definition size_form (s : bytes) : Prop := exists s1 g neg x n d y s2 u k,
  spaces s1 /\ sign g neg /\ decimal x n d /\ (y = [] \/ exponent_part y) /\ spaces s2 /\ unit_of u k /\
  s = s1 ++ g ++ x ++ y ++ s2 ++ u.

(* What is expected of pow(10., x): exact for 0; for -1, -2, ... less than one unit in
   the last place away from the power. *)
Definition pow_ok (pow10 : dbl -> dbl) : Prop :=
  pow10 (dnum 0) = dnum 1 /\
  forall d : nat, (0 < d)%nat -> (d < 300)%nat -> exists m E, pow10 (dnum (- Z.of_nat d)) = Fin m (- E) /\
    (0 <= E)%Z /\ (0 < m < 2 ^ 53)%Z /\ (2 ^ 52 * Z.abs (m * 10 ^ Z.of_nat d - 2 ^ E) <= 2 ^ E)%Z.
