(* Property theorems C51: what cgi and get print.  Statements only. *)
From Coq Require Import String.
From Verif Require Import Base IndexSpec HeaderModel HeaderSpec InflateSpec GzipModel GzipSpec ProgModel StoreModel StoreSpec StoreSysModel
  StoreToy StoreRuns StoreEnd CgiModel CgiSpec CgiMain CgiRuns.
Open Scope string_scope.
Open Scope list_scope.
Open Scope N_scope.

(* A reply can be read in one way only. *)
Theorem C51_reply_unique : forall out f1 b1 f2 b2, reply out f1 b1 -> reply out f2 b2 -> f1 = f2 /\ b1 = b2.
Proof. exact reply_unique. Qed.
Print Assumptions C51_reply_unique.

(* C51 in full: a GET request for the identifier which store has printed is answered
   with the type declared when the object was stored, with the length of what follows
   the empty line, and with the content of the object; compressed only if the client
   accepts that; and nothing in the archive changes.  This is false, see
   C51_type_refuted and C51_accept_refuted.

   Proved: when all commands have come to their end, identifiers are unambiguous
   ([apart]) and the declared types have no LF in them; whatever happens in between if
   it does not use the same digits; "accepts" being "mentions". *)
Theorem C51_cgi_partial : forall C L, conf_ok C -> zlib_ok L -> forall x y r b arg nid, reach C L x ->
  (forall j p, In (j, p) (wo_procs x) -> exists a, p = Ret a) -> apart C (wo_fs x) ->
  In (JStore r, Ret (Some b)) (wo_procs x) ->
  (List.length (f_idx (wo_fs x)) <= c_fuel C)%nat -> N.of_nat (List.length (f_idx (wo_fs x))) < 2 ^ 31 - 1 ->
  good_id (c_prefix C) (c_idsize C) arg nid -> lower (c_prefix C ++ nid) = lower b ->
  steps C L x y -> new_apart C (wo_fs x) (wo_fs y) -> forall e, cgi_get e arg ->
  (forall r' b', In (JStore r', Ret (Some b')) (wo_procs x) -> lower b' = lower b -> ~ In 10 (r_mime r')) ->
  exists r' b' out, In (JStore r', Ret (Some b')) (wo_procs x) /\ lower b' = lower b /\
    run (main_cgi C L e) (wo_fs y) = (wo_fs y, inl (CgiPage out)) /\ cgi_answer e (r_mime r') (List.concat (r_data r')) out.
Proof. exact end_cgi. Qed.
Print Assumptions C51_cgi_partial.
Example C51_cgi_case : exists x y, reach K toy x /\ (forall j p, In (j, p) (wo_procs x) -> exists a, p = Ret a) /\ apart K (wo_fs x) /\
  In (JStore hello, Ret (Some hello_id)) (wo_procs x) /\ (List.length (f_idx (wo_fs x)) <= c_fuel K)%nat /\
  good_id (c_prefix K) (c_idsize K) hello_id hello_dig /\ lower (c_prefix K ++ hello_dig) = lower hello_id /\
  steps K toy x y /\ new_apart K (wo_fs x) (wo_fs y) /\ cgi_get (env (47 :: hello_id) (Some (str "gzip"))) hello_id /\
  (forall r' b', In (JStore r', Ret (Some b')) (wo_procs x) -> lower b' = lower hello_id -> ~ In 10 (r_mime r')) /\ wo_procs y <> wo_procs x.
Proof. exact cgi_case. Qed.

(* With LF in the declared type the client is told another status, *)
Theorem C51_type_refuted : exists r x out, request_ok r /\ reach K toy x /\ wo_procs x = [(JStore r, Ret (Some hello_id))] /\ apart K (wo_fs x) /\
  snd (run (main_cgi K toy (env (47 :: hello_id) None)) (wo_fs x)) = inl (CgiPage out) /\
  reply out [(str "Content-Type", str "text/plain"); (str "Status", str "404"); (str "Content-Length", str "12"); (str "Status", str "200")] (str "Hello, world").
Proof. exact evil1_type. Qed.
Print Assumptions C51_type_refuted.
(* or gets another body. *)
Theorem C51_body_refuted : exists r x out body, request_ok r /\ reach K toy x /\ wo_procs x = [(JStore r, Ret (Some hello_id))] /\ apart K (wo_fs x) /\
  snd (run (main_cgi K toy (env (47 :: hello_id) None)) (wo_fs x)) = inl (CgiPage out) /\
  reply out [(str "Content-Type", str "text/plain")] body /\ body <> List.concat (r_data r).
Proof. exact evil2_body. Qed.
Print Assumptions C51_body_refuted.

(* A client which refuses gzip gets it. *)
Theorem C51_accept_refuted : exists x y, reach K toy x /\ wo_procs x = [(JStore hello, Ret (Some hello_id))] /\ apart K (wo_fs x) /\
  snd (run (main_cgi K toy (env (47 :: hello_id) (Some (str "identity, gzip;q=0")))) (wo_fs x)) = 
    inl (CgiPage (str "Content-Type: text/plain" ++ [10] ++ str "Content-Encoding: gzip" ++ [10] ++ y)).
Proof. exact refused. Qed.
Print Assumptions C51_accept_refuted.

(* The same for get: before the content it prints the header of the object: its
   identifier, type, length and digest of the whole, what it is about; under the same
   conditions (but for LF). *)
Theorem C51_headers_partial : forall C L, conf_ok C -> zlib_ok L -> forall x y r b arg nid, reach C L x ->
  (forall j p, In (j, p) (wo_procs x) -> exists a, p = Ret a) -> apart C (wo_fs x) ->
  In (JStore r, Ret (Some b)) (wo_procs x) ->
  (List.length (f_idx (wo_fs x)) <= c_fuel C)%nat -> N.of_nat (List.length (f_idx (wo_fs x))) < 2 ^ 31 - 1 ->
  good_id (c_prefix C) (c_idsize C) arg nid -> lower (c_prefix C ++ nid) = lower b ->
  steps C L x y -> new_apart C (wo_fs x) (wo_fs y) -> forall quiet hdr_only,
  exists r' b' hd, In (JStore r', Ret (Some b')) (wo_procs x) /\ lower b' = lower b /\
    run (main_get_out C L false quiet hdr_only arg) (wo_fs y) =
      (wo_fs y, inl (Some (if quiet then [] else warc_text (c_prefix C) hd, if hdr_only then [] else List.concat (r_data r')))) /\
    tells C (z_sha L) r' b' hd.
Proof. exact end_headers. Qed.
Print Assumptions C51_headers_partial.
(* As above, and for an object in two segments: *)
Example C51_headers_case : exists x, reach K toy x /\ (forall j p, In (j, p) (wo_procs x) -> exists a, p = Ret a) /\ apart K (wo_fs x) /\
  In (JStore big, Ret (Some big_id)) (wo_procs x) /\
  (forall r' b', In (JStore r', Ret (Some b')) (wo_procs x) -> lower b' = lower big_id -> List.concat (r_data r') = List.concat (r_data big)) /\
  (List.length (f_idx (wo_fs x)) <= c_fuel K)%nat /\ len (List.concat (r_data big)) = 11500.
Proof. exact get_end_case. Qed.
