(* How string literals are read in C (C99, 5.1.1.2, 6.4.5 and 6.4.4.4). *)
From Coq Require Import String.
From Verif Require Import Base VsbModel VsbSpec.
Open Scope list_scope.
Open Scope N_scope.

Definition letter_escape (e : N) : option N :=
  if e =? 110 then Some 10 else if e =? 114 then Some 13 else if e =? 116 then Some 9 else if e =? 118 then Some 11
  else if e =? 97 then Some 7 else if e =? 98 then Some 8 else if e =? 102 then Some 12
  else if (e =? 92) || (e =? 34) || (e =? 63) || (e =? 39) then Some e else None.
Definition oct_val (d : N) : option N := if (48 <=? d) && (d <=? 55) then Some (d - 48) else None.
Definition hex_val (d : N) : option N :=
  if (48 <=? d) && (d <=? 57) then Some (d - 48)
  else if (97 <=? d) && (d <=? 102) then Some (d - 87)
  else if (65 <=? d) && (d <=? 70) then Some (d - 55) else None.
(* a numeral with a base *)
Inductive numeral (val : N -> option N) (base : N) : bytes -> N -> Prop :=
| nu_one d x : val d = Some x -> numeral val base [d] x
| nu_more ds d n x : numeral val base ds n -> val d = Some x -> numeral val base (ds ++ [d]) (n * base + x).
(* the text does not go on with a digit *)
Definition no_digit (val : N -> option N) (t : bytes) : Prop := match t with [] => True | d :: _ => val d = None end.

(* what is between the quotes, and the bytes it stands for *)
Inductive c_text : bytes -> bytes -> Prop :=
| c_end : c_text [] []
| c_plain c t v : c <> 92 -> c <> 34 -> c <> 10 -> c_text t v -> c_text (c :: t) (c :: v)
| c_letter e x t v : letter_escape e = Some x -> c_text t v -> c_text (92 :: e :: t) (x :: v)
| c_octal ds x t v : numeral oct_val 8 ds x -> x < 256 -> (List.length ds <= 3)%nat -> List.length ds = 3%nat \/ no_digit oct_val t ->
    c_text t v -> c_text (92 :: ds ++ t) (x :: v)
| c_hex ds x t v : numeral hex_val 16 ds x -> x < 256 -> no_digit hex_val t -> c_text t v -> c_text (92 :: 120 :: ds ++ t) (x :: v).

Definition blank (t : bytes) : Prop := Forall (fun c => c = 32 \/ c = 9 \/ c = 10 \/ c = 11 \/ c = 12) t.
(* literals one behind the other are one *)
Inductive c_literals : bytes -> bytes -> Prop :=
| cl_end sp : blank sp -> c_literals sp []
| cl_one sp body t v w : blank sp -> c_text body v -> c_literals t w -> c_literals (sp ++ [34] ++ body ++ [34] ++ t) (v ++ w).

(* nothing which would be taken for a trigraph *)
Definition no_trigraph (t : bytes) : Prop := ~ exists a b, t = a ++ [63; 63] ++ b.

(* two hexadecimal digits for each byte *)
Inductive hex_pairs : bytes -> bytes -> Prop :=
| hp_end : hex_pairs [] []
| hp_more a b x y t v : hex_val a = Some x -> hex_val b = Some y -> hex_pairs t v -> hex_pairs (a :: b :: t) (16 * x + y :: v).

Definition printable (c : N) : Prop := 32 <= c <= 126.
(* bytes which may be given to the functions of ctype.h as char *)
Definition narrow (c : N) : Prop := c < 128 \/ c = 255.

(* the bytes handed over: so many, or up to a NUL *)
Definition handed (mem : bytes) (n : option N) (v : bytes) : Prop :=
  (n = Some (len v) /\ exists r, mem = v ++ r) \/ (n = None /\ ~ In 0 v /\ exists r, mem = v ++ 0 :: r).
(* these calls on a new buffer leave this text in it *)
Definition in_buffer (ops : list vop) (t : bytes) : Prop := forall alloc junk s, (forall n, alloc n = true) -> VSB_new_auto alloc junk = Some s ->
  exists s', vrun alloc junk s ops = Ok s' /\ holds s' t.
