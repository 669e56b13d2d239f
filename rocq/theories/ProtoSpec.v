(* Specification for the frame protocol. *)
From Verif Require Import Base.
Open Scope N_scope.

(* commands are three bits, payloads below 4 GiB *)
Definition ok_frame (f : N * bytes) : Prop := fst f < 8 /\ len (snd f) < 2 ^ 32.
