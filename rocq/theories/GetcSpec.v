(* What a command line of get asks for. *)
From Coq Require Import String.
From Verif Require Import Base IndexModel IndexSpec ProgModel StoreModel CmdModel CmdSpec GetcModel.
Open Scope string_scope.
Open Scope list_scope.
Open Scope N_scope.

Definition o_n := 110. Definition o_o := 111. Definition o_q := 113. Definition o_z := 122.
Definition get_vals : bytes := [o_o].
Definition get_flags : bytes := [o_h; o_n; o_q; o_z].

(* an option given an odd number of times *)
Fixpoint odd_times (c : N) (os : list (N * option bytes)) : bool :=
  match os with [] => false | o :: r => if fst o =? c then negb (odd_times c r) else odd_times c r end.

(* the file of the last -o *)
Definition out_file (os : list (N * option bytes)) : option bytes :=
  match rev (given o_o os) with f :: _ => Some f | [] => None end.

(* With headers hd and content d: the content goes to the file of -o and the headers to
   standard output, or the content to standard output and the headers to standard
   error; no headers with -q, no content with -n. *)
Definition puts (os : list (N * option bytes)) (hd d : bytes) (o : gout) : Prop :=
  let hd' := if odd_times o_q os then [] else hd in
  let d' := if odd_times o_n os then [] else d in
  match out_file os with
  | Some f => g_file o = Some (f, d') /\ g_stdout o = hd' /\ g_stderr o = []
  | None => g_file o = None /\ g_stdout o = d' /\ g_stderr o = hd'
  end.
