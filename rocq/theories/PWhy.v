(* Property theorems C62: what one is told when an object cannot be had.  Statements only. *)
From Coq Require Import String.
From Verif Require Import Base IndexModel IndexSpec HeaderModel HeaderSpec ProgModel StoreModel StoreSpec StoreSysModel StoreToy StoreEnd StoreRuns LiveSpec
  CgiModel CgiSpec CgiRuns CmdModel CmdSpec GetcModel GetcSpec WhyModel WhySpec WhyMain WhyRuns.
Open Scope string_scope.
Open Scope list_scope.
Open Scope N_scope.

(* C62 in full: cgi takes no options or operands and only GET requests; anything else gives status
   1, no output, and changes nothing. *)
Theorem C62_refused : forall C L args e s,
  ~ written [] [o_h] [] [] args \/ ~ cgi_fine e -> run (cgi_cmd C L args e) s = (s, inl (1, [])).
Proof. exact cgi_refused. Qed.
Print Assumptions C62_refused.
Example C62_refused_case : ~ written [] [o_h] [] [] [str "x"] /\ ~ cgi_fine bad_env.
Proof. exact refused_cgi_case. Qed.

(* Whatever the request and the archive, even a damaged one: if cgi comes to its end, it has changed
   nothing, and what it has printed is nothing, the object (see below and C51), or one of
   eight fixed pages.  So nothing of the request is ever in an error page. *)
Theorem C62_pages : forall C L args e s s' st out, run (cgi_cmd C L args e) s = (s', inl (st, out)) -> s' = s /\
  (st = 1 /\ out = [] \/
   st = 0 /\ ((exists m, In m all_reasons /\ error_page m out) \/ run (main_cgi C L e) s = (s, inl (CgiPage out)))).
Proof. exact cgi_any. Qed.
Print Assumptions C62_pages.

(* An object which was stored is served, under the conditions of C51. *)
Theorem C62_served_partial : forall C L, conf_ok C -> zlib_ok L -> forall x y r b arg nid, reach C L x ->
  (forall j p, In (j, p) (wo_procs x) -> exists a, p = Ret a) -> apart C (wo_fs x) ->
  In (JStore r, Ret (Some b)) (wo_procs x) ->
  (List.length (f_idx (wo_fs x)) <= c_fuel C)%nat -> N.of_nat (List.length (f_idx (wo_fs x))) < 2 ^ 31 - 1 ->
  good_id (c_prefix C) (c_idsize C) arg nid -> lower (c_prefix C ++ nid) = lower b ->
  steps C L x y -> new_apart C (wo_fs x) (wo_fs y) -> forall args e, written [] [o_h] [] [] args -> cgi_get e arg ->
  (forall r' b', In (JStore r', Ret (Some b')) (wo_procs x) -> lower b' = lower b -> ~ In 10 (r_mime r')) ->
  exists r' b' out, In (JStore r', Ret (Some b')) (wo_procs x) /\ lower b' = lower b /\
    run (cgi_cmd C L args e) (wo_fs y) = (wo_fs y, inl (0, out)) /\ cgi_answer e (r_mime r') (List.concat (r_data r')) out.
Proof. exact cgi_served. Qed.
Print Assumptions C62_served_partial.
(* A case for its hypotheses is C51_cgi_case. *)

(* What is not an identifier has exactly one fault, *)
Theorem C62_fault_total : forall C, conf_ok C -> forall id,
  (exists nid, good_id (c_prefix C) (c_idsize C) id nid) \/ exists m, fault (c_prefix C) (c_idsize C) id m.
Proof. exact fault_or. Qed.
Print Assumptions C62_fault_total.
Theorem C62_fault_unique : forall C id m m', fault (c_prefix C) (c_idsize C) id m -> fault (c_prefix C) (c_idsize C) id m' -> m = m'.
Proof. exact fault_one. Qed.
Print Assumptions C62_fault_unique.
Theorem C62_fault_invalid : forall C, conf_ok C -> forall id m nid,
  fault (c_prefix C) (c_idsize C) id m -> ~ good_id (c_prefix C) (c_idsize C) id nid.
Proof. exact fault_not_good. Qed.
Print Assumptions C62_fault_invalid.
(* and cgi and get say which. *)
Theorem C62_fault : forall C L s id m, fault (c_prefix C) (c_idsize C) id m -> says C L s id m.
Proof. exact fault_says. Qed.
Print Assumptions C62_fault.
Example C62_fault_case : fault (c_prefix K) (c_idsize K) (str "<script>") (str "ID is invalid (non-hex characters)") /\
  cgi_get (env (str "/<script>") None) (str "<script>") /\
  fault (c_prefix K) (c_idsize K) (c_prefix K ++ str "123") (str "ID is invalid (too short)").
Proof. exact script_case. Qed.

(* When all commands have come to their end, a valid identifier which nothing in the archive has is
   said not to be found; *)
Theorem C62_unknown : forall C L, conf_ok C -> zlib_ok L -> forall x arg nid, reach C L x ->
  (forall j p, In (j, p) (wo_procs x) -> exists a, p = Ret a) -> good_id (c_prefix C) (c_idsize C) arg nid ->
  unknown C L (wo_fs x) nid -> (0 < c_fuel C)%nat -> says C L (wo_fs x) arg (str "ID not found").
Proof. exact unknown_says. Qed.
Print Assumptions C62_unknown.

(* that of the description of a silo, and that of a later segment of an object, to be one.  Partial:
   if identifiers are unambiguous. *)
Theorem C62_warcinfo_partial : forall C L, conf_ok C -> forall s n o w e arg nid,
  apart C s -> in_archive C L s n o w e -> has (wr_hdr w) "WARC-Type" (str "warcinfo") -> lower (h_id (wr_hdr w)) = lower nid ->
  good_id (c_prefix C) (c_idsize C) arg nid -> (0 < c_fuel C)%nat -> says C L s arg (str "ID is warcinfo segment").
Proof. exact warcinfo_says. Qed.
Print Assumptions C62_warcinfo_partial.
Theorem C62_continuation_partial : forall C L, conf_ok C -> forall s n o w e k arg nid,
  apart C s -> in_archive C L s n o w e -> has (wr_hdr w) "WARC-Type" (str "continuation") ->
  has (wr_hdr w) "WARC-Segment-Number" k -> k <> str "1" -> lower (h_id (wr_hdr w)) = lower nid ->
  good_id (c_prefix C) (c_idsize C) arg nid -> (0 < c_fuel C)%nat -> says C L s arg (str "ID is continuation segment").
Proof. exact continuation_says. Qed.
Print Assumptions C62_continuation_partial.
Example C62_kinds_case : exists x, reach K toy x /\ (forall j p, In (j, p) (wo_procs x) -> exists a, p = Ret a) /\ apart K (wo_fs x) /\ (0 < c_fuel K)%nat /\
  unknown K toy (wo_fs x) hello_dig /\ good_id (c_prefix K) (c_idsize K) hello_id hello_dig /\
  (exists n o w e, in_archive K toy (wo_fs x) n o w e /\ has (wr_hdr w) "WARC-Type" (str "warcinfo") /\
     good_id (c_prefix K) (c_idsize K) (h_id (wr_hdr w)) (h_id (wr_hdr w))) /\
  (exists n o w e k, in_archive K toy (wo_fs x) n o w e /\ has (wr_hdr w) "WARC-Type" (str "continuation") /\
     good_id (c_prefix K) (c_idsize K) (h_id (wr_hdr w)) (h_id (wr_hdr w)) /\ has (wr_hdr w) "WARC-Segment-Number" k /\ k <> str "1").
Proof. exact why_case. Qed.
