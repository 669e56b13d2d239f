(* Property theorems C54: sizes with a suffix.  Statements only. *)
From Coq Require Import String.
From Verif Require Import Base HeaderSpec ConfigModel ConfigSpec NumModel NumSpec NumMain NumRuns NumExpSpec NumExp.
Open Scope string_scope.
Open Scope list_scope.
Open Scope N_scope.

(* C54 in full: a size is read as the number of bytes it says, and any other text is
   refused with a message.  This is false, see the refutations below.

   Proved: for every text of the form of a size, with any fraction, unit and spaces,
   which says a whole number of bytes below 2^49; with a fraction only if there is a
   unit; with less than 2^53 - 48 as the number of its digits; for every [pow10] which
   is accurate to one unit in the last place. *)
Theorem C54_exact_partial : forall pow10, pow_ok pow10 -> forall s n d u k x, size s false n d u k -> n + 48 < 2 ^ 53 -> (d < 300)%nat -> d = O \/ u <> [] ->
  n * k = x * 10 ^ N.of_nat d -> x < 2 ^ 49 -> VNUM_2bytes pow10 s = Ok (inl x).
Proof. exact size_exact. Qed.
Print Assumptions C54_exact_partial.
Example C54_pow_case : pow_ok pow_ref.
Proof. exact pow_ref_ok. Qed.
Example C54_exact_case : size (str "3.5G") false 35 1 (str "G") (2 ^ 30) /\ size (str " +10240 kB") false 10240 0 (str "kB") (2 ^ 10) /\ size (str "-1") true 1 0 [] 1.
Proof. exact size_case. Qed.

(* A fraction which is no whole number of bytes: the nearest, but for an error of
   2^-50. *)
Theorem C54_nearest : forall pow10, pow_ok pow10 -> forall s n d u k, size s false n d u k -> n + 48 < 2 ^ 53 -> (0 < d < 300)%nat -> u <> [] ->
  (Z.of_N (n * k) < 2 ^ 62 * 10 ^ Z.of_nat d)%Z ->
  exists r, VNUM_2bytes pow10 s = Ok (inl r) /\
    (2 ^ 50 * Z.abs (2 * Z.of_N r * 10 ^ Z.of_nat d - 2 * Z.of_N (n * k)) <= 2 ^ 50 * 10 ^ Z.of_nat d + 2 * Z.of_N (n * k))%Z.
Proof. exact size_frac. Qed.
Print Assumptions C54_nearest.

(* With an exponent: as C54_exact_partial, if the digits with the zeros the exponent adds are
   below 2^53 - 48, for every [pow10] which is exact up to 10^15 besides. *)
Theorem C54_exponent_partial : forall pow10, pow_ok pow10 -> pow_exact pow10 -> forall s n d e u k x, size_exp s false n d e u k -> (d < 300)%nat ->
  (-300 < e - Z.of_nat d <= 15)%Z -> n * 10 ^ Z.to_N (e - Z.of_nat d) + 48 < 2 ^ 53 -> (Z.of_nat d <= e)%Z \/ u <> [] ->
  n * k * 10 ^ Z.to_N (e - Z.of_nat d) = x * 10 ^ Z.to_N (Z.of_nat d - e) -> x < 2 ^ 49 -> VNUM_2bytes pow10 s = Ok (inl x).
Proof. exact exp_exact. Qed.
Print Assumptions C54_exponent_partial.
Example C54_exponent_case : size_exp (str "1.5e3k") false 15 1 3 (str "k") (2 ^ 10) /\ size_exp (str "25E-1 MB") false 25 0 (-1) (str "MB") (2 ^ 20) /\
  VNUM_2bytes pow_ref (str "1.5e3k") = Ok (inl 1536000) /\ VNUM_2bytes pow_ref (str "25E-1 MB") = Ok (inl 2621440).
Proof. exact exp_case. Qed.
Example C54_exponent_pow_case : pow_exact pow_ref.
Proof. exact pow_ref_exact. Qed.

(* Moving the point is the same as giving an exponent, whatever the size says. *)
Theorem C54_point : forall pow10 s s' neg n d e u k d', size_exp s neg n d e u k -> size s' neg n d' u k -> Z.of_nat d = (e + Z.of_nat d')%Z ->
  n + 48 < 2 ^ 53 -> (d < 300)%nat -> (d' < 300)%nat -> VNUM_2bytes pow10 s = VNUM_2bytes pow10 s'.
Proof. exact exp_moves. Qed.
Print Assumptions C54_point.
Example C54_point_case : size_exp (str "25E-1 MB") false 25 0 (-1) (str "MB") (2 ^ 20) /\ size (str "2.5MB") false 25 1 (str "MB") (2 ^ 20).
Proof. exact point_case. Qed.

(* Whole numbers of any unit: exact up to 2^64; behaviour undefined beyond that, and for
   all below zero. *)
Theorem C54_whole : forall pow10, pow_ok pow10 -> forall s neg n u k, size s neg n 0 u k -> n + 48 < 2 ^ 53 ->
  VNUM_2bytes pow10 s = if (if neg then n =? 0 else n * k <? 2 ^ 64) then Ok (inl (n * k)) else UB.
Proof. exact size_whole. Qed.
Print Assumptions C54_whole.

(* Text of another form is refused. *)
Theorem C54_form : forall pow10 p, size_form p \/ exists msg, VNUM_2bytes pow10 p = Ok (inr msg).
Proof. exact num_form. Qed.
Print Assumptions C54_form.
Example C54_form_case : ~ size_form (str "big").
Proof. exact not_form. Qed.

(* The defaults *)
Theorem C54_defaults : forall pow10, pow_ok pow10 -> VNUM_2bytes pow10 (str "3.5G") = Ok (inl 3758096384) /\ VNUM_2bytes pow10 (str "10M") = Ok (inl 10485760).
Proof. exact defaults. Qed.
Print Assumptions C54_defaults.

(* In the configuration: the limits in use are the sizes in the file, that for sorting
   cut down to a multiple of 32. *)
Theorem C54_config : forall pow10 strtoul fmt cfg aa, pow_ok pow10 -> AardWARC_New strtoul (num_of pow10) fmt cfg = Some aa ->
  (exists v, setting cfg (str "silo.max_size") (str "3.5G") v /\ size_form v /\
     forall n d u k x, size v false n d u k -> n + 48 < 2 ^ 53 -> (d < 300)%nat -> d = O \/ u <> [] -> n * k = x * 10 ^ N.of_nat d -> x < 2 ^ 49 ->
       aa_silo_maxsize aa = x) /\
  (exists v, setting cfg (str "index.sort_size") (str "10M") v /\ size_form v /\
     forall n d u k x, size v false n d u k -> n + 48 < 2 ^ 53 -> (d < 300)%nat -> d = O \/ u <> [] -> n * k = x * 10 ^ N.of_nat d -> x < 2 ^ 49 ->
       aa_index_sort_size aa = 32 * (x / 32)).
Proof. exact in_config. Qed.
Print Assumptions C54_config.
Example C54_config_case : AardWARC_New (fun _ => 128) (num_of pow_ref) (fun _ => true)
  [mkSc (str "WARC-Record-ID") [mkE (str "http://x/") (Some (str "128"))];
   mkSc (str "silo.max_size") [mkE (str "0.25t") None];
   mkSc (str "silo.directory") [mkE (str "/aa/") None]] =
  Some (mkAA (str "http://x/") 32 (str "/aa/") (2 ^ 38) (str "%08u.warc.gz") 10485760).
Proof. exact config_case. Qed.

(* A size below zero is not refused; what happens is undefined. *)
Theorem C54_negative_refuted : exists s, size s true 1 0 [] 1 /\ VNUM_2bytes pow_ref s = UB.
Proof. exact negative. Qed.
Print Assumptions C54_negative_refuted.
(* Near 2^53 one byte too much *)
Theorem C54_precision_refuted : VNUM_2bytes pow_ref (str "9007199254740991") = Ok (inl 9007199254740992).
Proof. exact imprecise. Qed.
Print Assumptions C54_precision_refuted.
(* One byte, with eleven zeros behind the point, is none. *)
Theorem C54_fraction_refuted : VNUM_2bytes pow_ref (str "1.00000000000") = Ok (inl 0) /\ VNUM_2bytes pow_ref (str "1.00000000000b") = Ok (inl 1).
Proof. exact cut_down. Qed.
Print Assumptions C54_fraction_refuted.
