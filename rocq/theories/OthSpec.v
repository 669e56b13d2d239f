(* What the command lines of byid, dumpindex and _testbytes ask for. *)
From Coq Require Import String.
From Verif Require Import Base IndexModel CmdModel CmdSpec GetcModel GetcSpec.
Open Scope string_scope.
Open Scope list_scope.
Open Scope N_scope.

Definition o_e := 101.
Definition mentions (c : N) (os : list (N * option bytes)) : bool := existsb (fun o => fst o =? c) os.
Definition last_of (c : N) (os : list (N * option bytes)) : option bytes :=
  match rev (given c os) with v :: _ => Some v | [] => None end.

(* The endless sequence of bytes of _testbytes: digest upon digest, from 32 zeros on. *)
Definition test_byte (sha : bytes -> bytes) (i : N) : N :=
  nth (N.to_nat (i mod 32)) (Nat.iter (S (N.to_nat (i / 32))) sha (repeat 0 32)) 0.
