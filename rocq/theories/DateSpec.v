(* Dates as ISO 8601 writes them, and the seconds since the Epoch as POSIX has them (XBD 4.16). *)
From Coq Require Import String.
From Verif Require Import Base.
Open Scope string_scope.
Open Scope list_scope.
Open Scope N_scope.

Fixpoint digits (k : nat) (n : N) : bytes :=
  match k with
  | O => []
  | S k' => digits k' (n / 10) ++ [48 + n mod 10]
  end.
Definition iso (y m d hh mi ss : N) : bytes :=
  digits 4 y ++ str "-" ++ digits 2 m ++ str "-" ++ digits 2 d ++ str "T" ++
  digits 2 hh ++ str ":" ++ digits 2 mi ++ str ":" ++ digits 2 ss ++ str "Z".

(* a year has a 29 February if it is a multiple of 4, but of 100 only if it is one of 400 *)
Definition february (y : N) : N :=
  if y mod 400 =? 0 then 29 else if y mod 100 =? 0 then 28 else if y mod 4 =? 0 then 29 else 28.
Definition months (y : N) : list N := [31; february y; 31; 30; 31; 30; 31; 31; 30; 31; 30; 31].
Definition yday (y m d : N) : N := fold_right N.add 0 (firstn (N.to_nat (m - 1)) (months y)) + (d - 1).
(* with tm_year = y - 1900; added where POSIX subtracts *)
Definition posix (y m d hh mi ss t : N) : Prop :=
  ss + mi * 60 + hh * 3600 + yday y m d * 86400 + (y - 1970) * 31536000 + (y - 1969) / 4 * 86400 + (y - 1601) / 400 * 86400
  = t + (y - 1901) / 100 * 86400.
Definition stands_for (text : bytes) (t : N) : Prop :=
  exists y m d hh mi ss, text = iso y m d hh mi ss /\ 1970 <= y <= 9999 /\ 1 <= m <= 12 /\
    1 <= d <= nth (N.to_nat (m - 1)) (months y) 0 /\ hh < 24 /\ mi < 60 /\ ss < 60 /\ posix y m d hh mi ss t.

(* 10000-01-01T00:00:00Z *)
Definition year_10000 : N := 253402300800.
