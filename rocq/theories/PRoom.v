(* C47: when a store begins a new silo. *)
From Coq Require Import String.
From Verif Require Import Base IndexModel IndexSpec HeaderModel ProgModel StoreModel StoreSpec StoreSysModel StoreToy StoreToyOk StoreWit StoreRuns StoreEnd
  LiveSpec LiveToy LiveEnd LiveRuns RoomSpec RoomRuns.
Open Scope string_scope.
Open Scope list_scope.
Open Scope N_scope.

(* C47, the part which holds: a store begins a new silo only if no silo with a smaller
   number, write protected ones and those after a write protected one left out, has
   room for the record, up to the tolerance in RoomSpec.  Partial: as in C55 the
   store runs alone and is of one segment; and there is the tolerance. *)
Theorem C47_room_partial : forall C L, conf_ok C -> zlib_ok L -> zlib_live L -> forall x, reach C L x ->
  (forall j p, In (j, p) (wo_procs x) -> exists a, p = Ret a) ->
  forall r id, request_ok r -> r_ident r = None -> r_data r <> [] -> fits C r -> number_left C (wo_fs x) -> rounds C r ->
  req_id C (z_sha L) r id ->
  (r_meta r = true -> apart C (wo_fs x) /\ (List.length (f_idx (wo_fs x)) <= c_fuel C)%nat /\
     N.of_nat (List.length (f_idx (wo_fs x))) < 2 ^ 31 - 1 /\
     exists r0 b0 nid, In (JStore r0, Ret (Some b0)) (wo_procs x) /\
       good_id (c_prefix C) (c_idsize C) (full_ref C r) nid /\ lower (c_prefix C ++ nid) = lower b0) ->
  forall s' a, unknown C L (wo_fs x) id -> run (main_store C L r) (wo_fs x) = (s', inl a) -> tight C (wo_fs x) s' id.
Proof. exact room_end. Qed.
Print Assumptions C47_room_partial.
Example C47_case_room : exists x b, reach KR toy3 x /\ (forall j p, In (j, p) (wo_procs x) -> exists a, p = Ret a) /\
  request_ok hello /\ r_ident hello = None /\ r_data hello <> [] /\ fits KR hello /\ number_left KR (wo_fs x) /\ rounds KR hello /\
  req_id KR (z_sha toy3) hello hello_dig /\ unknown KR toy3 (wo_fs x) hello_dig /\ r_meta hello = false /\
  f_silo (wo_fs x) 0 = Some (b, true) /\ f_silo (wo_fs x) 1 = None /\ f_silo (fst (run (main_store KR toy3 hello) (wo_fs x))) 1 <> None.
Proof. exact full_case. Qed.
Example C47_zlib : zlib_ok toy3 /\ zlib_live toy3 /\ conf_ok KR.
Proof. exact (conj toy3_ok (conj toy3_live KR_ok)). Qed.

(* Silos with larger numbers are passed over: once silo 3 is made by hand, a store
   begins silo 0. *)
Theorem C47_gap_refuted : exists x a b3 b0, reach KL toy3 x /\ wo_procs x = [(JMk 3, Ret None); (JStore hello, Ret (Some a))] /\
  f_silo (wo_fs x) 3 = Some (b3, true) /\ f_silo (wo_fs x) 0 = Some (b0, true) /\ len b3 + len b0 < c_max KL / 10.
Proof. exact gap_case. Qed.
Print Assumptions C47_gap_refuted.
