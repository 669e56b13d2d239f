(* What is expected of zlib when an object is stored in several segments, and when
   there is room for it. *)
From Coq Require Import String.
From Verif Require Import Base IndexModel IndexSpec HeaderModel InflateSpec GzipModel GzipSpec ProgModel StoreModel StoreSpec LiveSpec.
Open Scope string_scope.
Open Scope list_scope.
Open Scope N_scope.

(* deflate(3) as segjob.c:250-322 uses it in a file with room for R bytes: each call
   has a buffer of a megabyte or what is left of the file, less 24 bytes; it has at
   least 52 bytes, and is given at most half as many; and from the first call with
   less than 128 KB on everything is flushed. *)
Inductive steered (L : zlib) (R : N) : zstate L -> bytes -> bytes -> zflush -> Prop :=
| st_0 : steered L R (z_init L) [] [] ZNone
| st_call s d o fl i av s' out :
    steered L R s d o fl -> av + 24 = N.min BUFLEN (R - len o) -> 52 <= av -> i <> [] -> 2 * len i <= av ->
    z_deflate L s i av (if av <? 131072 then ZPartial else fl) = (s', len i, out, ZOk) ->
    steered L R s' (d ++ i) (o ++ out) (if av <? 131072 then ZPartial else fl).

(* This leaves room to flush, to finish and for the 24 bytes after that. *)
Record zlib_steer (L : zlib) : Prop := {
  zs_call : forall R s d o fl i av, 4000 <= R -> steered L R s d o fl ->
    av + 24 = N.min BUFLEN (R - len o) -> 52 <= av -> i <> [] -> 2 * len i <= av ->
    exists s' out, z_deflate L s i av (if av <? 131072 then ZPartial else fl) = (s', len i, out, ZOk) /\
      len o + len out + 24 < R;
  zs_end : forall R s d o fl av, 4000 <= R -> steered L R s d o fl -> av + 24 = N.min BUFLEN (R - len o) ->
    exists s1 c1 o1, z_deflate L s [] av ZSync = (s1, c1, o1, ZOk) /\ len o1 < av /\
      forall av2, av2 + 24 = N.min BUFLEN (R - (len o + len o1)) ->
      exists s2 c2 o2, z_deflate L s1 [] av2 ZFinish = (s2, c2, o2, ZEnd) /\ len o + len o1 + len o2 + 24 < R }.

(* A silo has room for its own description and for the header of a segment. *)
Definition fits_any (C : conf) : Prop := forall n, n < 2 ^ 32 ->
  len (warcinfo_body C (c_base C n)) <= 2 ^ 19 /\
  2 * len (warcinfo_body C (c_base C n)) + 12000 <= c_max C.

(* There are numbers left for as many silos as the object can need, and the loops of
   the model are allowed enough rounds. *)
Definition numbers_left (C : conf) (s : fs) (r : request) : Prop := exists m k,
  m + k <= 2 ^ 32 - 1 /\ m + k <= N.of_nat (c_fuel C) /\ k < 2 ^ 31 - 1 /\ (forall i, i < k -> f_silo s (m + i) = None) /\
  len (List.concat (r_data r)) < 300 * k.
Definition rounds_any (C : conf) (r : request) : Prop :=
  len (List.concat (r_data r)) + 52 <= 26 * N.of_nat (c_fuel C).

(* No part of the object which a silo has room for is ten times as long as a silo. *)
Definition size_left (C : conf) (L : zlib) (r : request) : Prop :=
  len (List.concat (r_data r)) < 2 ^ 62 /\
  forall R z a d b o fl, 4000 <= R -> R <= c_max C -> steered L R z d o fl -> List.concat (r_data r) = a ++ d ++ b -> len d < 10 * c_max C.
