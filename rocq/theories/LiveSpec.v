(* What more is expected of zlib for a store to succeed, and when there is room
   for it. *)
From Coq Require Import String.
From Verif Require Import Base IndexModel IndexSpec HeaderModel InflateSpec GzipModel GzipSpec ProgModel StoreModel StoreSpec.
Open Scope string_scope.
Open Scope list_scope.
Open Scope N_scope.

(* However little it is given at a time, deflate(3) makes at most eight bytes of
   each byte, and a thousand. *)
Definition zmax (n : N) : N := 8 * n + 1000.

Record zlib_live (L : zlib) : Prop := {
  (* all input is taken, if there is room for the most it can become, or half a
     megabyte and twice the input *)
  zl_call : forall s d o i av fl, zran L s d o -> fl = ZNone \/ fl = ZPartial -> i <> [] ->
    zmax (len d + len i) <= len o + av \/ 2 ^ 19 <= av /\ 2 * len i <= av ->
    exists s' out, z_deflate L s i av fl = (s', len i, out, ZOk);
  zl_total : forall s d o, zran L s d o -> len o <= zmax (len d);
  (* flushing and finishing succeed *)
  zl_sync : forall s d o av, zran L s d o -> 0 < av ->
    exists s' c out, z_deflate L s [] av ZSync = (s', c, out, ZOk) /\ len o + len out <= zmax (len d);
  zl_finish : forall s d o av1 s1 c1 o1 av, zran L s d o ->
    z_deflate L s [] av1 ZSync = (s1, c1, o1, ZOk) -> len o1 < av1 -> 0 < av ->
    exists s' c out rc, z_deflate L s1 [] av ZFinish = (s', c, out, rc) /\ rc <> ZErr /\
      len o + len o1 + len out <= zmax (len d);
  (* the header with the 'Aa' field, as Gzip_AddAa asks for *)
  zl_gzip : forall l t, is_bytes t -> len t < 2 ^ 62 -> exists xfl r, (xfl = 2 \/ xfl = 4) /\
    z_gzip L l t = [31; 139; 8; 4; 0; 0; 0; 0; xfl; 3; 12; 0; 65; 97; 8; 0] ++ r;
  zl_stream : forall s d o av1 s1 c1 o1 av2 s2 c2 o2, zran L s d o ->
    z_deflate L s [] av1 ZSync = (s1, c1, o1, ZOk) -> len o1 < av1 ->
    z_deflate L s1 [] av2 ZFinish = (s2, c2, o2, ZEnd) -> exists xfl r, (xfl = 2 \/ xfl = 4) /\
    o ++ o1 ++ o2 = [31; 139; 8; 4; 0; 0; 0; 0; xfl; 3; 12; 0; 65; 97; 8; 0] ++ r;
  (* without compression the length grows by the same amount for all short texts *)
  zl_stored : exists k, forall t, is_bytes t -> 0 < len t <= 4096 -> len (z_gzip L 0 t) = len t + k }.

(* Nobody is at work and nobody has been interrupted. *)
Definition at_rest (s : fs) : Prop := forall n, f_hold s n = None.

(* There is room in a silo for what is stored and what comes before it, and the
   description of the silo is not overly long. *)
Definition fits (C : conf) (r : request) : Prop := forall n, n < 2 ^ 32 ->
  len (warcinfo_body C (c_base C n)) <= 2 ^ 19 /\
  2 * len (warcinfo_body C (c_base C n)) + 8 * len (List.concat (r_data r)) + 12000 <= c_max C.

(* There is a number left for a silo, and the loops of the model are allowed enough
   rounds. *)
Definition number_left (C : conf) (s : fs) : Prop := exists m,
  m < 2 ^ 32 - 1 /\ f_silo s m = None /\ m < N.of_nat (c_fuel C).
Definition rounds (C : conf) (r : request) : Prop :=
  len (List.concat (r_data r)) < 2 ^ 18 * N.of_nat (c_fuel C).

(* The object is not there: nothing has that identifier. *)
Definition unknown (C : conf) (L : zlib) (s : fs) (id : bytes) : Prop :=
  forall n o w e, in_archive C L s n o w e -> lower (h_id (wr_hdr w)) <> lower id.
