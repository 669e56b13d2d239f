(* C59: the command line of get.  Definitions used: written, given (CmdSpec: how options
   may be written), puts, odd_times, out_file (GetcSpec), tells (CgiSpec: what the header
   says).  The functions under test are get_cmd (GetcModel) and store_cmd (CmdModel). *)
From Coq Require Import String.
From Verif Require Import Base IndexModel IndexSpec HeaderModel HeaderSpec InflateSpec GzipModel GzipSpec ProgModel StoreModel StoreSpec StoreSysModel
  StoreToy StoreRuns StoreEnd LiveSpec LiveToy LiveRuns CgiModel CgiSpec ConfigModel ConfigSpec CmdModel CmdSpec CmdEnd GetcModel GetcSpec GetcMain GetcRuns.
Open Scope string_scope.
Open Scope list_scope.
Open Scope N_scope.

(* C59: however the options of get are written, what was stored comes out: the content
   in the file of the last -o with the header on standard output, or the content on
   standard output with the header on standard error; -q leaves out the header and -n the
   content.  The exit status is 0 and the archive is not changed.  Partial, as C24 and
   C51: the digits of the identifier must be unambiguous in the index (apart), and
   stores of the same identifier must have been of the same content. *)
Theorem C59_delivers_partial : forall C L openable, conf_ok C -> zlib_ok L -> forall x r b, reach C L x ->
  (forall j p, In (j, p) (wo_procs x) -> exists a, p = Ret a) -> apart C (wo_fs x) ->
  In (JStore r, Ret (Some b)) (wo_procs x) ->
  (forall r' b', In (JStore r', Ret (Some b')) (wo_procs x) -> lower b' = lower b -> List.concat (r_data r') = List.concat (r_data r)) ->
  (List.length (f_idx (wo_fs x)) <= c_fuel C)%nat -> N.of_nat (List.length (f_idx (wo_fs x))) < 2 ^ 31 - 1 ->
  forall arg nid, good_id (c_prefix C) (c_idsize C) arg nid -> lower (c_prefix C ++ nid) = lower b ->
  forall os args, written get_vals get_flags os [arg] args -> ~ In (o_h, None) os -> (forall f, out_file os = Some f -> openable f = true) ->
  forall y, steps C L x y -> new_apart C (wo_fs x) (wo_fs y) -> odd_times o_z os = false ->
  exists r' b' hd o, In (JStore r', Ret (Some b')) (wo_procs x) /\ lower b' = lower b /\ tells C (z_sha L) r' b' hd /\
    run (get_cmd C L openable args) (wo_fs y) = (wo_fs y, inl (0, o)) /\ puts os (warc_text (c_prefix C) hd) (List.concat (r_data r)) o.
Proof. exact get_delivers. Qed.
Print Assumptions C59_delivers_partial.

(* C59, with -z: gunzip(1) makes the content of what comes out. *)
Theorem C59_gzip_partial : forall C L openable, conf_ok C -> zlib_ok L -> forall x r b, reach C L x ->
  (forall j p, In (j, p) (wo_procs x) -> exists a, p = Ret a) -> apart C (wo_fs x) ->
  In (JStore r, Ret (Some b)) (wo_procs x) ->
  (forall r' b', In (JStore r', Ret (Some b')) (wo_procs x) -> lower b' = lower b -> List.concat (r_data r') = List.concat (r_data r)) ->
  (List.length (f_idx (wo_fs x)) <= c_fuel C)%nat -> N.of_nat (List.length (f_idx (wo_fs x))) < 2 ^ 31 - 1 ->
  forall arg nid, good_id (c_prefix C) (c_idsize C) arg nid -> lower (c_prefix C ++ nid) = lower b ->
  forall os args, written get_vals get_flags os [arg] args -> ~ In (o_h, None) os -> (forall f, out_file os = Some f -> openable f = true) ->
  c_max C < 2 ^ 32 -> comb_ok (z_comb L) -> len (List.concat (r_data r)) < 2 ^ 32 -> odd_times o_z os = true ->
  exists r' b' hd o out, In (JStore r', Ret (Some b')) (wo_procs x) /\ lower b' = lower b /\ tells C (z_sha L) r' b' hd /\
    run (get_cmd C L openable args) (wo_fs x) = (wo_fs x, inl (0, o)) /\ puts os (warc_text (c_prefix C) hd) out o /\
    gunzip out = Some (List.concat (r_data r), []).
Proof. exact get_gzip. Qed.
Print Assumptions C59_gzip_partial.
Example C59_case : exists x, reach K toy x /\ (forall j p, In (j, p) (wo_procs x) -> exists a, p = Ret a) /\ apart K (wo_fs x) /\
  In (JStore big, Ret (Some big_id)) (wo_procs x) /\
  (forall r' b', In (JStore r', Ret (Some b')) (wo_procs x) -> lower b' = lower big_id -> List.concat (r_data r') = List.concat (r_data big)) /\
  (List.length (f_idx (wo_fs x)) <= c_fuel K)%nat /\ len (List.concat (r_data big)) = 11500 /\
  good_id (c_prefix K) (c_idsize K) big_dig big_dig /\ lower (c_prefix K ++ big_dig) = lower big_id /\
  written get_vals get_flags out_opts [big_dig] (out_line big_dig) /\ ~ In (o_h, None) out_opts /\ odd_times o_z out_opts = false /\
  c_max K < 2 ^ 32 /\ comb_ok (z_comb toy) /\
  written get_vals get_flags [(o_z, None); (o_q, None)] [big_dig] [str "-zq"; str "--"; big_dig] /\ odd_times o_z [(o_z, None); (o_q, None)] = true.
Proof. exact big_there. Qed.

(* C59: what a command line of store was given comes back from every command line of get
   with the identifier it printed.  Partial as above. *)
Theorem C59_roundtrip_partial : forall C L openable cfg input x r b s' arg nid sos ops sargs os args, conf_ok C -> zlib_ok L -> reach C L x ->
  (forall j p, In (j, p) (wo_procs x) -> exists a, p = Ret a) ->
  written store_vals store_flags sos ops sargs -> asks C cfg input sos ops r -> request_ok r ->
  run (store_cmd C L cfg input sargs) (wo_fs x) = (s', inl b) ->
  (forall r' b', In (JStore r', Ret (Some b')) (wo_procs x) -> lower b' = lower b -> List.concat (r_data r') = List.concat (r_data r)) ->
  apart C s' -> (List.length (f_idx s') <= c_fuel C)%nat -> N.of_nat (List.length (f_idx s')) < 2 ^ 31 - 1 ->
  good_id (c_prefix C) (c_idsize C) arg nid -> lower (c_prefix C ++ nid) = lower b ->
  written get_vals get_flags os [arg] args -> ~ In (o_h, None) os -> odd_times o_z os = false ->
  (forall f, out_file os = Some f -> openable f = true) ->
  exists r' b' hd o, (r' = r /\ b' = b \/ In (JStore r', Ret (Some b')) (wo_procs x)) /\ lower b' = lower b /\ tells C (z_sha L) r' b' hd /\
    run (get_cmd C L openable args) s' = (s', inl (0, o)) /\ puts os (warc_text (c_prefix C) hd) (List.concat (r_data r)) o.
Proof. exact store_then_get. Qed.
Print Assumptions C59_roundtrip_partial.
Example C59_case_roundtrip : exists s', reach KL toy3 (mkWorld fs0 []) /\
  written store_vals store_flags in_opts [str "notes"] in_line /\ asks KL any_cfg notes in_opts [str "notes"] hello /\ request_ok hello /\
  run (store_cmd KL toy3 any_cfg notes in_line) fs0 = (s', inl hello_id) /\
  apart KL s' /\ (List.length (f_idx s') <= c_fuel KL)%nat /\ N.of_nat (List.length (f_idx s')) < 2 ^ 31 - 1 /\
  good_id (c_prefix KL) (c_idsize KL) hello_dig hello_dig /\ lower (c_prefix KL ++ hello_dig) = lower hello_id /\
  written get_vals get_flags out_opts [hello_dig] (out_line hello_dig) /\ ~ In (o_h, None) out_opts /\ odd_times o_z out_opts = false.
Proof. exact round_case. Qed.

(* C59: a command line which does not name one object, or asks for help, or has an
   option get does not know, is refused. *)
Theorem C59_refused : forall C L openable args s, (forall os arg, written get_vals get_flags os [arg] args -> In (o_h, None) os) ->
  run (get_cmd C L openable args) s = (s, inr DExit).
Proof. exact get_refused. Qed.
Print Assumptions C59_refused.
Example C59_case_refused : let args := [str "-q"; hello_dig; big_dig] in forall os arg, written get_vals get_flags os [arg] args -> In (o_h, None) os.
Proof. exact refused_get. Qed.

(* C59: an object which is not there, and a text which is no identifier, give status 1
   and no output; and the file of -o is emptied, if there is one. *)
Theorem C59_unknown : forall C L openable x arg nid os args, conf_ok C -> zlib_ok L -> reach C L x ->
  (forall j p, In (j, p) (wo_procs x) -> exists a, p = Ret a) ->
  good_id (c_prefix C) (c_idsize C) arg nid -> unknown C L (wo_fs x) nid -> (0 < c_fuel C)%nat ->
  written get_vals get_flags os [arg] args -> ~ In (o_h, None) os ->
  exists o, run (get_cmd C L openable args) (wo_fs x) = (wo_fs x, inl (1, o)) /\ g_stdout o = [] /\ g_stderr o = [] /\
    g_file o = match out_file os with Some f => if openable f then Some (f, []) else None | None => None end.
Proof. exact get_unknown. Qed.
Print Assumptions C59_unknown.
Example C59_case_unknown : reach KL toy3 (mkWorld fs0 []) /\ good_id (c_prefix KL) (c_idsize KL) hello_dig hello_dig /\
  unknown KL toy3 fs0 hello_dig /\ (0 < c_fuel KL)%nat /\
  written get_vals get_flags out_opts [hello_dig] (out_line hello_dig) /\ ~ In (o_h, None) out_opts.
Proof. exact unknown_case. Qed.
Theorem C59_invalid : forall C L openable s arg os args, conf_ok C -> (forall nid, ~ good_id (c_prefix C) (c_idsize C) arg nid) ->
  written get_vals get_flags os [arg] args -> ~ In (o_h, None) os ->
  exists o, run (get_cmd C L openable args) s = (s, inl (1, o)) /\ g_stdout o = [] /\ g_stderr o = [].
Proof. exact get_invalid. Qed.
Print Assumptions C59_invalid.
Example C59_case_invalid : (forall nid, ~ good_id (c_prefix KL) (c_idsize KL) (str "notes") nid) /\
  written get_vals get_flags out_opts [str "notes"] (out_line (str "notes")) /\ ~ In (o_h, None) out_opts.
Proof. exact invalid_case. Qed.

(* A get of something unknown destroys what was in the file of -o. *)
Theorem C59_emptied_refuted : exists C L x os arg nid args f o, conf_ok C /\ zlib_ok L /\ reach C L x /\
  good_id (c_prefix C) (c_idsize C) arg nid /\ unknown C L (wo_fs x) nid /\
  written get_vals get_flags os [arg] args /\ given o_o os = [f] /\
  run (get_cmd C L (fun _ => true) args) (wo_fs x) = (wo_fs x, inl (1, o)) /\ g_file o = Some (f, []).
Proof. exact emptied. Qed.
Print Assumptions C59_emptied_refuted.

(* If the file of -o cannot be opened, the content is written to a null pointer. *)
Theorem C59_unopened_refuted : exists C L x os arg args r, conf_ok C /\ zlib_ok L /\ reach C L x /\
  In (JStore r, Ret (Some (c_prefix C ++ arg))) (wo_procs x) /\
  written get_vals get_flags os [arg] args /\ run (get_cmd C L (fun _ => false) args) (wo_fs x) = (wo_fs x, inr DUB).
Proof. exact unopened. Qed.
Print Assumptions C59_unopened_refuted.
