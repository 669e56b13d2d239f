(* What mksilo is for. *)
From Coq Require Import String.
From Verif Require Import Base IndexModel IndexSpec HeaderModel HeaderSpec ProgModel StoreModel StoreSpec.
Open Scope string_scope.
Open Scope list_scope.
Open Scope N_scope.

(* Silo n is there: it begins with a record which says what it is, and that record
   can be found in the index. *)
Definition silo_there (C : conf) (L : zlib) (s : fs) (n : N) : Prop :=
  exists w e, in_archive C L s n 0 w e /\
    has (wr_hdr w) "WARC-Type" (str "warcinfo") /\ has (wr_hdr w) "WARC-Filename" (c_base C n).

(* That record has room in a silo. *)
Definition info_fits (C : conf) : Prop := forall n, n < 2 ^ 32 ->
  len (warcinfo_body C (c_base C n)) <= 2 ^ 19 /\ 2 * len (warcinfo_body C (c_base C n)) + 12000 <= c_max C.

(* Numbers as in C: digits, most significant first. *)
Inductive digit_of : N -> N -> Prop :=
| dg_09 d : d < 10 -> digit_of (48 + d) d
| dg_af d : 10 <= d < 36 -> digit_of (87 + d) d
| dg_AF d : 10 <= d < 36 -> digit_of (55 + d) d.
Inductive numeral (b : N) : bytes -> N -> Prop :=
| nu_nil : numeral b [] 0
| nu_snoc l v c d : numeral b l v -> digit_of c d -> d < b -> numeral b (l ++ [c]) (v * b + d).
Inductive reads_as : bytes -> N -> Prop :=
| ra_dec c l v : c <> 48 -> numeral 10 (c :: l) v -> reads_as (c :: l) v
| ra_oct l v : numeral 8 l v -> reads_as (48 :: l) v
| ra_hex x l v : x = 120 \/ x = 88 -> l <> [] -> numeral 16 l v -> reads_as (48 :: x :: l) v.
(* with a sign, and blanks before it *)
Inductive signed : bytes -> Z -> Prop :=
| sd_none t v : reads_as t v -> signed t (Z.of_N v)
| sd_plus t v : reads_as t v -> signed (43 :: t) (Z.of_N v)
| sd_minus t v : reads_as t v -> signed (45 :: t) (- Z.of_N v)
| sd_blank c t z : c = 32 \/ 9 <= c <= 13 -> signed t z -> signed (c :: t) z.
