(* Common vocabulary: bytes, strings, endian encoding, hex, comparison. *)
From Coq Require Export List NArith ZArith Bool Lia.
From Coq Require Import String Ascii.
Export ListNotations.
Open Scope N_scope.

(* A byte or character of the C program. *)
Definition byte := N.
Definition bytes := list N.

(* Outcome of a piece of C code.  [Abort] is a failed assert/AN/AZ/WRONG
   (/repo/vas.c:52-91 calls abort(3)), [UB] is behaviour the C standard leaves
   undefined, [Fuel] is "the loop bound of the model was reached". *)
Inductive res (A : Type) : Type :=
| Ok (a : A) | Abort | UB | Fuel.
Arguments Ok {A} a.
Arguments Abort {A}.
Arguments UB {A}.
Arguments Fuel {A}.

Definition bind {A B} (r : res A) (f : A -> res B) : res B :=
  match r with Ok a => f a | Abort => Abort | UB => UB | Fuel => Fuel end.
Notation "'let*' x ':=' r 'in' k" := (bind r (fun x => k))
  (at level 200, x pattern, r at level 100, k at level 200).
Definition guard (b : bool) : res unit := if b then Ok tt else Abort.

(* String literals as byte lists. *)
Fixpoint str (s : string) : bytes :=
  match s with
  | EmptyString => []
  | String a r => N_of_ascii a :: str r
  end.
Arguments str s%string_scope.

Definition len {A} (l : list A) : N := N.of_nat (List.length l).

(* memcmp(3)/strcmp(3) order on equal length buffers, lexicographic in
   general. *)
Fixpoint lex (a b : bytes) : comparison :=
  match a, b with
  | [], [] => Eq
  | [], _ :: _ => Lt
  | _ :: _, [] => Gt
  | x :: a', y :: b' =>
      match x ?= y with Eq => lex a' b' | c => c end
  end.

Definition lexb_lt a b := match lex a b with Lt => true | _ => false end.
Definition lexb_le a b := match lex a b with Gt => false | _ => true end.
Definition lexb_eq a b := match lex a b with Eq => true | _ => false end.

(* <sys/endian.h> be16enc/be32enc/be64enc and be*dec: k bytes, most
   significant first. *)
Fixpoint be_enc (k : nat) (n : N) : bytes :=
  match k with
  | O => []
  | S k' => be_enc k' (n / 256) ++ [n mod 256]
  end.
Definition be_dec (l : bytes) : N := fold_left (fun a b => a * 256 + b) l 0.

(* little endian, as used by the gzip format *)
Definition le_enc (k : nat) (n : N) : bytes := rev (be_enc k n).
Definition le_dec (l : bytes) : N := be_dec (rev l).

(* <ctype.h> in the C locale *)
Definition is_upper (c : N) : bool := (65 <=? c) && (c <=? 90).
Definition is_lower (c : N) : bool := (97 <=? c) && (c <=? 122).
Definition is_digit (c : N) : bool := (48 <=? c) && (c <=? 57).
Definition to_lower (c : N) : N := if is_upper c then c + 32 else c.
Definition is_hex (c : N) : bool :=
  is_digit c || ((97 <=? c) && (c <=? 102)) || ((65 <=? c) && (c <=? 70)).
Definition is_graph (c : N) : bool := (33 <=? c) && (c <=? 126).
Definition is_space (c : N) : bool := (c =? 32) || ((9 <=? c) && (c <=? 13)).

Definition lower (s : bytes) : bytes := map to_lower s.

(* strcasecmp(3) / strncasecmp(3) as orders on C strings (no NUL inside). *)
Definition casecmp (a b : bytes) : comparison := lex (lower a) (lower b).
Definition caseeq (a b : bytes) : bool := lexb_eq (lower a) (lower b).
Definition ncaseeq (n : nat) (a b : bytes) : bool :=
  caseeq (firstn n a) (firstn n b).
Definition bytes_eqb (a b : bytes) : bool := lexb_eq a b.

(* printf("%0kx") of a number below 16^k, lower case *)
Definition hexdig (d : N) : N := if d <? 10 then 48 + d else 87 + d.
Fixpoint hexpad (k : nat) (n : N) : bytes :=
  match k with
  | O => []
  | S k' => hexpad k' (n / 16) ++ [hexdig (n mod 16)]
  end.

(* printf("%ju"): decimal, no leading zeros, "0" for zero *)
Fixpoint dec_aux (fuel : nat) (n : N) (acc : bytes) : bytes :=
  match fuel with
  | O => acc
  | S f => let acc' := (48 + n mod 10) :: acc in
           if n <? 10 then acc' else dec_aux f (n / 10) acc'
  end.
Definition dec (n : N) : bytes := dec_aux (S (N.to_nat (N.log2 n))) n [].

(* fixed width decimal with leading zeros, at least k digits: printf("%0ku") *)
Definition decpad (k : nat) (n : N) : bytes :=
  let d := dec n in repeat 48 (k - List.length d) ++ d.

(* Cut a file into k-byte records; a trailing partial record is kept as the
   last (short) element. *)
Fixpoint chunks_aux (fuel k : nat) (l : bytes) : list bytes :=
  match fuel with
  | O => []
  | S f => match l with
           | [] => []
           | _ => firstn k l :: chunks_aux f k (skipn k l)
           end
  end.
Definition chunks (k : nat) (l : bytes) : list bytes :=
  chunks_aux (List.length l) k l.
