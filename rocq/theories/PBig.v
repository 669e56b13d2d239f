(* C55 and C25 for objects of any size. *)
From Coq Require Import String.
From Verif Require Import Base IndexModel IndexSpec HeaderModel InflateSpec GzipModel GzipSpec ProgModel StoreModel StoreSpec StoreSysModel
  StoreToy StoreWit StoreRuns StoreEnd LiveSpec LiveToy LiveRuns BigSpec BigToy BigEnd BigShrink.
Open Scope string_scope.
Open Scope list_scope.
Open Scope N_scope.

(* C55: in any archive where nobody is at work or has been interrupted, a store of
   something new succeeds, in however many segments it takes: it prints the
   identifier, leaves no hold behind, and the object is there with its contents.
   There are numbers left for new silos, and no part of the object which a silo has
   room for is ten times as long as a silo.  Partial: no identifier is given (-i), and zlib behaves as
   LiveSpec and BigSpec say. *)
Theorem C55_store_any_size_partial : forall C L, conf_ok C -> zlib_ok L -> zlib_live L -> zlib_steer L -> forall x, reach C L x ->
  (forall j p, In (j, p) (wo_procs x) -> exists a, p = Ret a) ->
  forall r id, request_ok r -> r_ident r = None -> r_data r <> [] -> fits_any C -> numbers_left C (wo_fs x) r -> rounds_any C r ->
  size_left C L r -> req_id C (z_sha L) r id ->
  (r_meta r = true -> apart C (wo_fs x) /\ (List.length (f_idx (wo_fs x)) <= c_fuel C)%nat /\
     N.of_nat (List.length (f_idx (wo_fs x))) < 2 ^ 31 - 1 /\
     exists r0 b0 nid, In (JStore r0, Ret (Some b0)) (wo_procs x) /\
       good_id (c_prefix C) (c_idsize C) (full_ref C r) nid /\ lower (c_prefix C ++ nid) = lower b0) ->
  unknown C L (wo_fs x) id ->
  exists s', run (main_store C L r) (wo_fs x) = (s', inl (c_prefix C ++ id)) /\ at_rest s' /\
    exists p, stored_as C L s' (req_type r) id (List.concat (r_data r)) p.
Proof. exact big_new_end. Qed.
Print Assumptions C55_store_any_size_partial.
Example C55_zlib_steer : zlib_ok toy3 /\ zlib_live toy3 /\ zlib_steer toy3 /\ conf_ok KB.
Proof. exact (conj toy3_ok (conj toy3_live (conj toy3_steer KB_ok))). Qed.
(* an object which is more than ten times as big as a silo *)
Example C55_case_any_size : exists x id, reach KB toy3 x /\ (forall j p, In (j, p) (wo_procs x) -> exists a, p = Ret a) /\
  request_ok huge /\ r_ident huge = None /\ r_data huge <> [] /\ fits_any KB /\ numbers_left KB (wo_fs x) huge /\ rounds_any KB huge /\
  size_left KB toy3 huge /\ req_id KB (z_sha toy3) huge id /\ unknown KB toy3 (wo_fs x) id /\ r_meta huge = false /\
  10 * c_max KB < len (List.concat (r_data huge)).
Proof. exact huge_case. Qed.

(* C55 fails for objects of several segments whose last segment compresses to a
   small part (at silo.max_size 49999: some 50 kB, then a megabyte of zeros).  The header of a
   segment is written before its length is known.  For the length of the segment two digits more are
   kept than silo.max_size has; for the total length of the object likewise, by the looks
   of segjob.c:143, but the format there is "%00jd", not "00%jd", and adds none.  So
   both may grow by two digits, which leaves four bytes for padding where
   wsilo.c:536 insists on five.  By then the segments before are in their silos and in the
   index, and the hold of the last is left behind. *)
Theorem C55_compressed_refuted : exists C L, conf_ok C /\ zlib_ok L /\ zlib_live L /\ zlib_steer L /\ exists x, reach C L x /\
  (forall j p, In (j, p) (wo_procs x) -> exists a, p = Ret a) /\
  exists r id, request_ok r /\ r_ident r = None /\ r_data r <> [] /\ fits_any C /\ numbers_left C (wo_fs x) r /\ rounds_any C r /\
    req_id C (z_sha L) r id /\ r_meta r = false /\ len (List.concat (r_data r)) < 2 ^ 62 /\ unknown C L (wo_fs x) id /\
    exists s', run (main_store C L r) (wo_fs x) = (s', inr DAbort) /\ f_idx s' <> f_idx (wo_fs x) /\ ~ at_rest s'.
Proof. exact shrink_end. Qed.
Print Assumptions C55_compressed_refuted.

(* C25: storing what is there already succeeds as well, whatever its size, and
   changes neither silos nor index.  Partial as above. *)
Theorem C25_again_any_size_partial : forall C L, conf_ok C -> zlib_ok L -> zlib_live L -> zlib_steer L -> forall x, reach C L x ->
  (forall j p, In (j, p) (wo_procs x) -> exists a, p = Ret a) ->
  forall r id, request_ok r -> r_ident r = None -> r_data r <> [] -> fits_any C -> numbers_left C (wo_fs x) r -> rounds_any C r ->
  size_left C L r -> req_id C (z_sha L) r id ->
  (r_meta r = true -> apart C (wo_fs x) /\ (List.length (f_idx (wo_fs x)) <= c_fuel C)%nat /\
     N.of_nat (List.length (f_idx (wo_fs x))) < 2 ^ 31 - 1 /\
     exists r0 b0 nid, In (JStore r0, Ret (Some b0)) (wo_procs x) /\
       good_id (c_prefix C) (c_idsize C) (full_ref C r) nid /\ lower (c_prefix C ++ nid) = lower b0) ->
  forall r0 b0, apart C (wo_fs x) -> (List.length (f_idx (wo_fs x)) <= c_fuel C)%nat ->
  N.of_nat (List.length (f_idx (wo_fs x))) < 2 ^ 31 - 1 ->
  In (JStore r0, Ret (Some b0)) (wo_procs x) -> lower (c_prefix C ++ id) = lower b0 ->
  exists s', run (main_store C L r) (wo_fs x) = (s', inl (c_prefix C ++ id)) /\
    f_silo s' = f_silo (wo_fs x) /\ f_idx s' = f_idx (wo_fs x) /\ at_rest s'.
Proof. exact big_again_end. Qed.
Print Assumptions C25_again_any_size_partial.
Example C25_case_any_size : exists x, reach KL toy3 x /\ (forall j p, In (j, p) (wo_procs x) -> exists a, p = Ret a) /\
  request_ok hello /\ r_ident hello = None /\ r_data hello <> [] /\ fits_any KL /\ numbers_left KL (wo_fs x) hello /\ rounds_any KL hello /\
  size_left KL toy3 hello /\ req_id KL (z_sha toy3) hello hello_dig /\ r_meta hello = false /\ apart KL (wo_fs x) /\
  List.length (f_idx (wo_fs x)) = 2%nat /\ In (JStore hello, Ret (Some hello_id)) (wo_procs x) /\ c_prefix KL ++ hello_dig = hello_id.
Proof. exact again_case. Qed.
