(* Property theorem C31: frames survive transmission. *)
From Coq Require Import String.
From Verif Require Import Base ProtoModel ProtoSpec ProtoProofs.
Open Scope string_scope.
Open Scope list_scope.
Open Scope N_scope.

(* C31: whatever the sizes of the individual reads, the receiver sees the
   frames sent, in order, and then a clean end of file. *)
Theorem C31_frames : forall fs cut fuel, Forall ok_frame fs -> (length fs < fuel)%nat ->
  exists s, transmit fs = Ok s /\ receive fuel cut s = (fs, EndClean).
Proof. exact frames_arrive. Qed.
Print Assumptions C31_frames.

(* C31: if the connection breaks after k bytes the receiver has seen exactly
   the frames which were transmitted completely, and the end looks clean only
   at a frame boundary. *)
Theorem C31_broken : forall fs s cut fuel k, Forall ok_frame fs -> transmit fs = Ok s ->
  (length fs < fuel)%nat -> (k <= length s)%nat ->
  exists j e, receive fuel cut (firstn k s) = (firstn j fs, e) /\ e <> EndFuel /\ (j <= length fs)%nat /\
    (e = EndClean <-> exists t, transmit (firstn j fs) = Ok t /\ length t = k) /\
    (exists t, transmit (firstn j fs) = Ok t /\ (length t <= k)%nat /\
      forall j' t', (j < j' <= length fs)%nat -> transmit (firstn j' fs) = Ok t' -> (k < length t')%nat).
Proof. exact receive_cut. Qed.
Print Assumptions C31_broken.
Definition ex_frames : list (N * bytes) :=
  [(1, str "abcdefgh"); (2, []); (3, repeat 7 32); (7, repeat 9 300); (0, repeat 8 255)].
Example C31_case : Forall ok_frame ex_frames /\
  match transmit ex_frames with
  | Ok s => len s = 606 /\ receive 6 (fun _ _ => 3) s = (ex_frames, EndClean) /\
            receive 6 (fun _ _ => 3) (firstn 50 s) = (firstn 3 ex_frames, EndBroken)
  | _ => False
  end.
Proof.
  split; [repeat constructor; vm_compute; reflexivity|]. vm_compute. auto.
Qed.

(* C31: the limit is real: the length of a larger payload arrives wrong. *)
Theorem C31_limit : forall cmd p s, cmd < 8 -> 2 ^ 32 <= len p -> proto_out cmd p = Ok s ->
  exists l r, proto_in s = InFrame cmd l r /\ l <> len p /\ l = len p mod 2 ^ 32.
Proof. exact large_payload. Qed.
Print Assumptions C31_limit.
Example C31_limit_case : exists p : bytes, 2 ^ 32 <= len p.
Proof. exists (repeat 0 (N.to_nat (2 ^ 32))). unfold len. rewrite repeat_length, N2Nat.id. apply N.le_refl. Qed.
