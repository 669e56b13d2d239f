(* A message which lists names, one to a line. *)
From Coq Require Import String.
From Verif Require Import Base.
Open Scope string_scope.
Open Scope list_scope.
Open Scope N_scope.

Inductive lists : bytes -> list bytes -> Prop :=
| L_none : lists [] []
| L_more n r names : ~ In 10 n -> lists r names -> lists (9 :: n ++ 10 :: r) (n :: names).
Definition first_line (wt : bytes) : bytes := str "Illegal mime-type for " ++ wt ++ str ", pick one of:" ++ [10].
