(* Specification of lines: a separate definition from the stream alone. *)
From Verif Require Import Base.
Open Scope list_scope.
Open Scope N_scope.

(* The lines of a stream (each ended by CR or NL) and the unfinished rest. *)
Fixpoint lines_acc (cur : bytes) (s : bytes) : list bytes * bytes :=
  match s with
  | [] => ([], cur)
  | c :: r =>
      if (c =? 10) || (c =? 13) then
        let '(ls, rest) := lines_acc [] r in (cur :: ls, rest)
      else lines_acc (cur ++ [c]) r
  end.
Definition lines (s : bytes) : list bytes := fst (lines_acc [] s).
Definition rest (s : bytes) : bytes := snd (lines_acc [] s).

(* every line, and the rest, is shorter than n *)
Definition short (n : N) (s : bytes) : Prop :=
  Forall (fun l => len l < n) (lines s) /\ len (rest s) < n.

(* no NUL in the stream *)
Definition textual (s : bytes) : Prop := ~ In 0 s.

(* remembers each line; refuses those in [stop] *)
Definition collect (stop : bytes -> Z) (acc : list bytes) (line : bytes) : list bytes * Z :=
  (acc ++ [line], stop line).

(* through the first refused line *)
Fixpoint upto_stop (stop : bytes -> Z) (ls : list bytes) : list bytes * Z :=
  match ls with
  | [] => ([], 0%Z)
  | l :: r =>
      if (stop l =? 0)%Z then let '(a, i) := upto_stop stop r in (l :: a, i)
      else ([l], stop l)
  end.

(* a sequence of calls: pieces of the stream *)
Fixpoint feed_all {L} (feed : L -> list bytes -> bytes -> res (list bytes * L * Z))
    (l : L) (acc : list bytes) (ps : list bytes) : res (list bytes * L * Z) :=
  match ps with
  | [] => Ok (acc, l, 0%Z)
  | p :: ps' =>
      let* (r, i) := feed l acc p in
      let '(acc', l') := r in
      if (i =? 0)%Z then feed_all feed l' acc' ps' else Ok (acc', l', i)
  end.

(* no line end *)
Definition eol_free (s : bytes) : Prop := Forall (fun c => (c =? 10) || (c =? 13) = false) s.
