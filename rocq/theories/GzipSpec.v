(* Specification of the gzip functions, in terms of the RFC 1951/1952 decoder
   of InflateSpec. *)
From Verif Require Import Base InflateSpec.
Open Scope N_scope.

(* A gzip member as segments are written: the header with the 'Aa' extra field
   which holds the length of the member; deflate blocks none of which is the
   last one, up to a byte boundary, ending in an empty stored block (that is
   what Z_SYNC_FLUSH does); an empty last block (Z_FINISH with nothing left);
   CRC and length of the data. *)
Definition synced (m data : bytes) : Prop :=
  exists xfl B fin,
    m = ([31; 139; 8; 4; 0; 0; 0; 0; xfl; 3; 12; 0; 65; 97; 8; 0] ++ le_enc 8 (len m)) ++
        B ++ fin ++ le_enc 4 (crc32 data) ++ le_enc 4 (len data mod 2 ^ 32) /\
    len m < 2 ^ 63 /\
    (exists B0, B = B0 ++ [0; 0; 255; 255]) /\
    blocks [] (to_bits B) (rev data) [] /\
    (fin = [3; 0] \/ fin = [1; 0; 0; 255; 255]).

(* A way to read a member in pieces: no empty piece, the first one reaches past
   the header. *)
Definition pieces (m : bytes) (ps : list bytes) : Prop :=
  concat ps = m /\ Forall (fun p => p <> []) ps /\
  match ps with p :: _ => 24 <= len p | [] => False end.

(* The effect of n zero bytes on a CRC register, and what crc32_combine(3) is
   documented to compute. *)
Definition crc_zeros (c n : N) : N := N.iter n (fun c => crc_byte c 0) c.
Definition comb_ok (comb : N -> N -> N -> N) : Prop :=
  forall c1 c2 n, c1 < 2 ^ 32 -> c2 < 2 ^ 32 -> comb c1 c2 n = N.lxor (crc_zeros c1 n) c2.

(* Segments: pieces as read, and the data in them. *)
Definition ok_seg (s : list bytes * bytes) : Prop :=
  exists m, pieces m (fst s) /\ synced m (snd s).
