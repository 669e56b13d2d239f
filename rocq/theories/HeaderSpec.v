(* Specification of headers: a map from names, letter case ignored. *)
From Coq Require Import String Sorting.Sorted.
From Verif Require Import Base HeaderModel.
Open Scope string_scope.
Open Scope list_scope.
Open Scope N_scope.

Inductive hop := HSet (name val : bytes) | HDel (name : bytes).

Definition hop_name (o : hop) : bytes := match o with HSet n _ => n | HDel n => n end.

(* Names a caller may use: no ':' and not the identifier line. *)
Definition ok_name (n : bytes) : Prop :=
  ~ In 58 n /\ lower n <> lower (str "WARC-Record-ID").

Fixpoint run_hops (hd : header) (ops : list hop) : res header :=
  match ops with
  | [] => Ok hd
  | HSet n v :: r => let* hd' := Header_Set hd n v in run_hops hd' r
  | HDel n :: r => let* hd' := Header_Delete hd n in run_hops hd' r
  end.

(* What the last operation on that name left behind; d is what was there
   before. *)
Fixpoint outcome (d : option bytes) (ops : list hop) (n : bytes) : option bytes :=
  match ops with
  | [] => d
  | HSet m v :: r => outcome (if list_eq_dec N.eq_dec (lower m) (lower n) then Some v else d) r n
  | HDel m :: r => outcome (if list_eq_dec N.eq_dec (lower m) (lower n) then None else d) r n
  end.

(* Alphabetical order, letter case ignored, no name twice. *)
Definition name_lt (a b : hfield) : Prop := lex (lower (hf_name a)) (lower (hf_name b)) = Lt.

(* Texts which survive being written to a header: no NUL, no CR.  (LF would
   survive too.) *)
Definition clean (s : bytes) : Prop := ~ In 0 s /\ ~ In 13 s.

(* Identifiers which survive: as clean, and neither '/' nor '>'. *)
Definition clean_id (s : bytes) : Prop := clean s /\ ~ In 47 s /\ ~ In 62 s.

(* archive prefixes: no '>', end in '/' *)
Definition clean_prefix (p : bytes) : Prop := clean p /\ ~ In 62 p /\ exists q, p = q ++ [47].

(* Value of a decimal numeral *)
Definition numeral (s : bytes) : Prop := s <> [] /\ Forall (fun c => is_digit c = true) s.
Fixpoint dec_value (s : bytes) : N :=
  match s with
  | [] => 0
  | c :: r => (c - 48) * 10 ^ len r + dec_value r
  end.
