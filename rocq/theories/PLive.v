(* C55, and more of C25: a store succeeds. *)
From Coq Require Import String.
From Verif Require Import Base IndexModel IndexSpec HeaderModel InflateSpec GzipModel GzipSpec ProgModel StoreModel StoreSpec StoreSysModel
  StoreToy StoreWit StoreRuns StoreEnd LiveSpec LiveToy LiveEnd LiveRuns.
Open Scope string_scope.
Open Scope list_scope.
Open Scope N_scope.

(* C55: in any archive where nobody is at work or has been interrupted, whatever
   was done there before, a store of something new prints its identifier, leaves no
   hold behind, and the object is there with its contents.  For metadata the object
   it is about was stored before.  Partial: the object is so small that eight times
   its length fits in a silo (so it is one segment); no identifier is given (-i); and zlib
   behaves as LiveSpec says. *)
Theorem C55_store_succeeds_partial : forall C L, conf_ok C -> zlib_ok L -> zlib_live L -> forall x, reach C L x ->
  (forall j p, In (j, p) (wo_procs x) -> exists a, p = Ret a) ->
  forall r id, request_ok r -> r_ident r = None -> r_data r <> [] -> fits C r -> number_left C (wo_fs x) -> rounds C r ->
  req_id C (z_sha L) r id ->
  (r_meta r = true -> apart C (wo_fs x) /\ (List.length (f_idx (wo_fs x)) <= c_fuel C)%nat /\
     N.of_nat (List.length (f_idx (wo_fs x))) < 2 ^ 31 - 1 /\
     exists r0 b0 nid, In (JStore r0, Ret (Some b0)) (wo_procs x) /\
       good_id (c_prefix C) (c_idsize C) (full_ref C r) nid /\ lower (c_prefix C ++ nid) = lower b0) ->
  unknown C L (wo_fs x) id ->
  exists s', run (main_store C L r) (wo_fs x) = (s', inl (c_prefix C ++ id)) /\ at_rest s' /\
    exists p, stored_as C L s' (req_type r) id (List.concat (r_data r)) p.
Proof. exact new_end. Qed.
Print Assumptions C55_store_succeeds_partial.
Example C55_zlib : zlib_ok toy3 /\ zlib_live toy3 /\ conf_ok KL.
Proof. exact (conj toy3_ok (conj toy3_live KL_ok)). Qed.
Example C55_case : exists x, reach KL toy3 x /\ (forall j p, In (j, p) (wo_procs x) -> exists a, p = Ret a) /\
  request_ok hello /\ r_ident hello = None /\ r_data hello <> [] /\ fits KL hello /\ number_left KL (wo_fs x) /\ rounds KL hello /\
  req_id KL (z_sha toy3) hello hello_dig /\ unknown KL toy3 (wo_fs x) hello_dig /\ r_meta hello = false.
Proof. exact new_case. Qed.
Example C55_case_metadata : exists x, reach KL toy3 x /\ (forall j p, In (j, p) (wo_procs x) -> exists a, p = Ret a) /\
  request_ok about /\ r_ident about = None /\ r_data about <> [] /\ fits KL about /\ number_left KL (wo_fs x) /\ rounds KL about /\
  req_id KL (z_sha toy3) about about_dig /\ unknown KL toy3 (wo_fs x) about_dig /\ r_meta about = true /\ apart KL (wo_fs x) /\
  List.length (f_idx (wo_fs x)) = 2%nat /\ In (JStore hello, Ret (Some hello_id)) (wo_procs x) /\
  good_id (c_prefix KL) (c_idsize KL) (full_ref KL about) hello_dig /\ c_prefix KL ++ hello_dig = hello_id.
Proof. exact meta_case. Qed.

(* C25: storing what is there already succeeds as well, prints the identifier, and
   changes neither silos nor index.  Partial as above, and index digits are
   unambiguous. *)
Theorem C25_again_succeeds_partial : forall C L, conf_ok C -> zlib_ok L -> zlib_live L -> forall x, reach C L x ->
  (forall j p, In (j, p) (wo_procs x) -> exists a, p = Ret a) ->
  forall r id, request_ok r -> r_ident r = None -> r_data r <> [] -> fits C r -> number_left C (wo_fs x) -> rounds C r ->
  req_id C (z_sha L) r id ->
  (r_meta r = true -> apart C (wo_fs x) /\ (List.length (f_idx (wo_fs x)) <= c_fuel C)%nat /\
     N.of_nat (List.length (f_idx (wo_fs x))) < 2 ^ 31 - 1 /\
     exists r0 b0 nid, In (JStore r0, Ret (Some b0)) (wo_procs x) /\
       good_id (c_prefix C) (c_idsize C) (full_ref C r) nid /\ lower (c_prefix C ++ nid) = lower b0) ->
  forall r0 b0, apart C (wo_fs x) -> (List.length (f_idx (wo_fs x)) <= c_fuel C)%nat ->
  N.of_nat (List.length (f_idx (wo_fs x))) < 2 ^ 31 - 1 ->
  In (JStore r0, Ret (Some b0)) (wo_procs x) -> lower (c_prefix C ++ id) = lower b0 ->
  exists s', run (main_store C L r) (wo_fs x) = (s', inl (c_prefix C ++ id)) /\
    f_silo s' = f_silo (wo_fs x) /\ f_idx s' = f_idx (wo_fs x) /\ at_rest s'.
Proof. exact again_end. Qed.
Print Assumptions C25_again_succeeds_partial.
Example C25_case_succeeds : exists x, reach KL toy3 x /\ (forall j p, In (j, p) (wo_procs x) -> exists a, p = Ret a) /\
  request_ok hello /\ r_ident hello = None /\ r_data hello <> [] /\ fits KL hello /\ number_left KL (wo_fs x) /\ rounds KL hello /\
  req_id KL (z_sha toy3) hello hello_dig /\ r_meta hello = false /\ apart KL (wo_fs x) /\
  List.length (f_idx (wo_fs x)) = 2%nat /\ In (JStore hello, Ret (Some hello_id)) (wo_procs x) /\ c_prefix KL ++ hello_dig = hello_id.
Proof. exact twice_case. Qed.
