(* C56, C57: command lines. *)
From Coq Require Import String.
From Verif Require Import Base IndexModel IndexSpec HeaderModel ProgModel StoreModel StoreSpec StoreSysModel StoreToy StoreWit StoreRuns StoreEnd
  LiveSpec LiveToy LiveRuns ConfigModel ConfigSpec CmdModel CmdSpec CmdMain CmdEnd.
Open Scope string_scope.
Open Scope list_scope.
Open Scope N_scope.

(* C56: however its options are written, a store command does what they ask for
   ([main_store] is what C20-C28 and C55 are about). *)
Theorem C56_accepted : forall C L cfg input os ops args r,
  written store_vals store_flags os ops args -> asks C cfg input os ops r ->
  forall s, run (store_cmd C L cfg input args) s = run (main_store C L r) s.
Proof. exact accepted_run. Qed.
Print Assumptions C56_accepted.
Example C56_case : written store_vals store_flags line_opts [str "notes"] line /\
  asks KL any_cfg (one_file [RData (str "some "); RData (str "notes")]) line_opts [str "notes"] line_req.
Proof. exact line_case. Qed.

(* C56: every other command line is refused and nothing is changed.  Partial: not if
   reading fails in the middle, see C56_read_refuted. *)
Theorem C56_refused_partial : forall C L cfg input, conf_ok C -> forall args s,
  (forall f l, input f = Some l -> ~ breaks_off l) ->
  (forall os ops r, written store_vals store_flags os ops args -> ~ asks C cfg input os ops r) ->
  run (store_cmd C L cfg input args) s = (s, inr DExit).
Proof. exact refused. Qed.
Print Assumptions C56_refused_partial.
Example C56_case_refused : let args := [str "-r"; hello_dig; str "notes"] in
  (forall f l, one_file [RData (str "x")] f = Some l -> ~ breaks_off l) /\
  (forall os ops r, written store_vals store_flags os ops args -> ~ asks KL any_cfg (one_file [RData (str "x")]) os ops r).
Proof. exact refused_case. Qed.

(* C56: metadata about something which is not in the archive is refused and
   nothing is changed. *)
Theorem C56_reference : forall C L x r nid cfg input os ops args, conf_ok C -> zlib_ok L -> reach C L x ->
  (forall j p, In (j, p) (wo_procs x) -> exists a, p = Ret a) ->
  written store_vals store_flags os ops args -> asks C cfg input os ops r -> request_ok r -> r_meta r = true ->
  good_id (c_prefix C) (c_idsize C) (r_ref r) nid -> unknown C L (wo_fs x) nid -> (0 < c_fuel C)%nat ->
  run (store_cmd C L cfg input args) (wo_fs x) = (wo_fs x, inr DExit).
Proof. exact reference_end. Qed.
Print Assumptions C56_reference.
Example C56_case_reference : exists x, reach KL toy3 x /\ (forall j p, In (j, p) (wo_procs x) -> exists a, p = Ret a) /\
  request_ok line_req /\ r_meta line_req = true /\ good_id (c_prefix KL) (c_idsize KL) (r_ref line_req) hello_dig /\
  unknown KL toy3 (wo_fs x) hello_dig /\ (0 < c_fuel KL)%nat.
Proof. exact reference_case. Qed.

(* When reading fails in the middle of the input, what was read so far is stored and
   its identifier printed, as if the input had ended. *)
Theorem C56_read_refuted : exists C L cfg input args s d s' id, conf_ok C /\ zlib_ok L /\ empty_fs s /\
  input None = Some [RData d; RErr] /\ breaks_off [RData d; RErr] /\
  run (store_cmd C L cfg input args) s = (s', inl (c_prefix C ++ id)) /\ exists p, stored_as C L s' (str "resource") id d p.
Proof. exact read_refuted. Qed.
Print Assumptions C56_read_refuted.

(* C57: a command is run exactly if the command line names it behind global options and
   a configuration can be used: that of the last -c, or else the first usable one of
   three; with -j only if it knows about JSON. *)
Theorem C57_main_partial : forall strtoul vnum fmt files home bufsiz args aa c json rest,
  main strtoul vnum fmt files home bufsiz args = MRun aa c json rest <->
  exists os, written main_vals main_flags os (names_of c :: rest) args /\ ~ In (o_h, None) os /\ (json = true <-> In (o_j, None) os) /\
    uses (load strtoul vnum fmt files) home (given o_c os) aa /\ (json = true -> c = CInfo) /\
    (given o_c os = [] -> forall h, home = Some h -> len (h ++ str "/.aardwarc.conf") < bufsiz).
Proof. exact main_runs. Qed.
Print Assumptions C57_main_partial.
Example C57_case : exists aa, written main_vals main_flags [(o_j, None); (o_c, Some (str "/etc/aardwarc.conf"))] [str "info"; str "-h"] main_line /\
  main (fun _ => 128) vnum0 (fun _ => true) two_files None 1024 main_line = MRun aa CInfo true [str "-h"].
Proof. exact main_case. Qed.

(* A configuration file of one's own with a mistake in it is passed over in silence,
   and the command works on the archive of /etc/aardwarc.conf. *)
Theorem C57_other_refuted : exists files home aa, files (home ++ str "/.aardwarc.conf") <> None /\
  main (fun _ => 128) vnum0 (fun _ => true) files (Some home) 1024 [str "store"; str "notes"] = MRun aa CStore false [str "notes"] /\
  aa_silo_dirname aa = str "/archive/" /\
  load (fun _ => 128) vnum0 (fun _ => true) files (str "/etc/aardwarc.conf") = Some aa.
Proof. exact other_refuted. Qed.
Print Assumptions C57_other_refuted.

(* A value of HOME of about BUFSIZ bytes makes every command without -c abort, although
   /etc/aardwarc.conf could be used. *)
Theorem C57_home_refuted : exists files home, load (fun _ => 128) vnum0 (fun _ => true) files (str "/etc/aardwarc.conf") <> None /\
  main (fun _ => 128) vnum0 (fun _ => true) files (Some home) 1024 [str "info"] = MAbort.
Proof. exact long_refuted. Qed.
Print Assumptions C57_home_refuted.
