(* What the input of the filter command means, and what it should print. *)
From Coq Require Import Permutation Sorting.Sorted.
From Verif Require Import Base IndexModel IndexSpec.
Open Scope N_scope.

(* A line given: empty, or an identifier, with or without prefix, and anything
   behind it. *)
Inductive given := Blank | Given (p id tail : bytes).
Definition g_line (g : given) : bytes :=
  match g with Blank => [] | Given p id t => p ++ id ++ t end.
Definition text (g : given) : bytes := g_line g ++ [10].

Definition plain (s : bytes) : Prop := Forall (fun c => c <> 0 /\ c <> 10) s.

Definition good_given (bufsiz : nat) (prefix : bytes) (id_size : N) (g : given) : Prop :=
  plain (g_line g) /\ (length (text g) < bufsiz)%nat /\
  match g with
  | Blank => True
  | Given p id t => (p = [] \/ lower p = lower prefix) /\ hexstr id /\ len id = id_size
  end.

(* The prefix is not hex digits throughout its first id_size characters. *)
Definition no_hex_prefix (prefix : bytes) (id_size : N) : Prop :=
  exists a c b, prefix = a ++ c :: b /\ is_hex c = false /\ len a < id_size.

(* No upper case letters in identifiers. *)
Definition small (id : bytes) : Prop := lower id = id.
Definition small_given (g : given) : Prop := match g with Blank => True | Given _ id _ => small id end.

(* What is printed for a line, when it is known whether the object is there. *)
Definition answer (r_flag v_flag : bool) (there : bytes -> bool) (g : given) : bytes :=
  match g with
  | Blank => []
  | Given p id t =>
      if v_flag then (if there id then [49; 32] else [48; 32]) ++ text g
      else if Bool.eqb (there id) r_flag then text g else []
  end.

(* Any sorting by identifier. *)
Definition sorts (qsort : list (nat * bytes) -> list (nat * bytes)) : Prop :=
  forall l, Permutation (qsort l) l /\
    StronglySorted (fun a b => lex (snd a) (snd b) <> Gt) (qsort l).

(* The index lists something under the first 24 digits of the identifier. *)
Definition listed (es : list ixent) (id : bytes) : Prop :=
  exists e, In e es /\ asked (Some id) e.

(* Lines which are refused: not of the form above, too long, or without end. *)
Inductive refused (bufsiz : nat) (prefix : bytes) (id_size : N) : bytes -> Prop :=
| ref_form s more : s <> [] -> plain s -> (length s + 1 < bufsiz)%nat ->
    (forall p id t, s = p ++ id ++ t -> ~ good_given bufsiz prefix id_size (Given p id t)) ->
    refused bufsiz prefix id_size (s ++ [10] ++ more)
| ref_long s more : plain s -> s <> [] -> (length s + 1 = bufsiz)%nat ->
    refused bufsiz prefix id_size (s ++ more)
| ref_end s : plain s -> s <> [] -> (length s + 1 < bufsiz)%nat ->
    refused bufsiz prefix id_size s.
