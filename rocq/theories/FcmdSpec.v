(* What a command line of filter asks for. *)
From Coq Require Import String.
From Verif Require Import Base IndexModel IndexSpec ProgModel StoreModel CmdModel CmdSpec GetcModel GetcSpec.
Open Scope string_scope.
Open Scope list_scope.
Open Scope N_scope.

Definition o_s := 115. Definition o_v := 118.
Definition filt_vals : bytes := [o_o].
Definition filt_flags : bytes := [o_h; o_r; o_s; o_v].

(* the lists named; "-" is standard input, which is read if none is named *)
Definition named (ops : list bytes) : list bytes := match ops with [] => [str "-"] | _ => ops end.
(* a list can be read, and this is in it *)
Definition reads (stdin : bytes) (fs : bytes -> option bytes) (n c : bytes) : Prop :=
  n = str "-" /\ c = stdin \/ n <> str "-" /\ fs n = Some c.
(* standard input is named once at most *)
Definition once (ops : list bytes) : Prop := forall a b c, ops <> a ++ str "-" :: b ++ str "-" :: c.

(* The answer is in the file of the last -o, or on standard output; all other files are as before. *)
Definition answered (os : list (N * option bytes)) (fs : bytes -> option bytes) (out : bytes) (fs' : bytes -> option bytes) (printed : bytes) : Prop :=
  match out_file os with
  | None => printed = out /\ forall g, fs' g = fs g
  | Some f => printed = [] /\ fs' f = Some out /\ forall g, g <> f -> fs' g = fs g
  end.
(* No answer; at most the file of -o has changed. *)
Definition unanswered (os : list (N * option bytes)) (fs fs' : bytes -> option bytes) : Prop :=
  forall g, out_file os <> Some g -> fs' g = fs g.
