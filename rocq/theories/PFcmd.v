(* C60: the command line of filter.  Definitions used: written (CmdSpec: how options may
   be written), named, reads, once, answered, unanswered (FcmdSpec), odd_times, out_file
   (GetcSpec), good_given, text, answer, sorts, refused (FilterSpec).  The function under
   test is filter_cmd (FcmdModel). *)
From Coq Require Import String.
From Verif Require Import Base IndexModel IndexSpec IndexSysModel IndexSysSpec HeaderModel ProgModel StoreModel StoreSpec StoreSysModel
  StoreToy StoreRuns FilterModel FilterSpec FilterMain CmdModel CmdSpec GetcModel GetcSpec FcmdModel FcmdSpec FcmdMain.
Open Scope string_scope.
Open Scope list_scope.
Open Scope N_scope.

(* C60: however the options of filter are written, it answers for the lines of all
   lists named, in their order (standard input for "-" or if none is named), in the
   file of the last -o or on standard output; status 0; no other file changes.
   Partial, as C30: identifiers in lower case, of 24 digits or more, and being there
   means the same 24 digits; and the file of -o must not be one of the lists
   (C60_overwritten_refuted). *)
Theorem C60_answers_partial : forall C L, conf_ok C -> zlib_ok L -> forall x qsort bufsiz hdr_id gss st l stdin writable fs os ops args,
  reach C L x -> (forall j p, In (j, p) (wo_procs x) -> exists a, p = Ret a) ->
  sorts qsort -> no_hex_prefix (c_prefix C) (c_idsize C) -> 24 <= c_idsize C ->
  lookup st None = Ok l -> (forall e, In e l <-> In e (f_idx (wo_fs x))) ->
  Forall (Forall (good_given bufsiz (c_prefix C) (c_idsize C))) gss -> Forall (Forall small_given) gss ->
  written filt_vals filt_flags os ops args -> ~ In (o_h, None) os ->
  Forall2 (reads stdin fs) (named ops) (map (flat_map text) gss) -> once ops -> (forall f, out_file os = Some f -> writable f = true /\ ~ In f ops) ->
  odd_times o_s os = false ->
  exists there fs' pr, filter_cmd qsort bufsiz (c_prefix C) (c_idsize C) hdr_id st stdin writable fs args = (fs', Ok (0, pr)) /\
    answered os fs (flat_map (answer (odd_times o_r os) (odd_times o_v os) there) (List.concat gss)) fs' pr /\
    (forall p id t, In (Given p id t) (List.concat gss) ->
       (there id = true <-> exists n o w e, in_archive C L (wo_fs x) n o w e /\ pad 24 (h_id (wr_hdr w)) = firstn 24 id) /\
       (forall r b, In (JStore r, Ret (Some b)) (wo_procs x) -> lower b = lower (c_prefix C ++ id) -> there id = true)).
Proof. exact fcmd_archive. Qed.
Print Assumptions C60_answers_partial.
Example C60_case : exists x ix, reach K toy x /\ (forall j p, In (j, p) (wo_procs x) -> exists a, p = Ret a) /\
  24 <= c_idsize K /\ no_hex_prefix (c_prefix K) (c_idsize K) /\ lookup ix None = Ok (f_idx (wo_fs x)) /\
  In (JStore hello, Ret (Some hello_id)) (wo_procs x) /\
  Forall (good_given 1024 (c_prefix K) (c_idsize K)) hello_given /\ Forall small_given hello_given /\
  written filt_vals filt_flags [(o_r, None)] [] [str "-r"] /\ once [] /\ Forall2 (reads (flat_map text hello_given) (fun _ => None)) (named []) (map (flat_map text) [hello_given]).
Proof. exact fworld_case. Qed.
(* a file and standard input, with -v and -o *)
Example C60_case_lists : written filt_vals filt_flags fopt [str "a"; str "-"] fline /\ ~ In (o_h, None) fopt /\
  Forall2 (reads list_in user_files) (named [str "a"; str "-"]) (map (flat_map text) [[Given [] abc []; Blank]; [Given pre abd (str " x")]]) /\
  once [str "a"; str "-"] /\ ~ In (str "out") [str "a"; str "-"] /\ out_file fopt = Some (str "out") /\
  Forall (Forall (good_given 1024 pre 32)) [[Given [] abc []; Blank]; [Given pre abd (str " x")]] /\ no_hex_prefix pre 32 /\
  Forall (Forall small_given) [[Given [] abc []; Blank]; [Given pre abd (str " x")]] /\ odd_times o_s fopt = false.
Proof. exact fline_case. Qed.

(* With -s, if no two records share 24 digits: exactly those identifiers are there which
   records have. *)
Theorem C60_silos_partial : forall C L, conf_ok C -> zlib_ok L -> forall x qsort bufsiz gss st l stdin writable fs os ops args,
  reach C L x -> (forall j p, In (j, p) (wo_procs x) -> exists a, p = Ret a) ->
  sorts qsort -> no_hex_prefix (c_prefix C) (c_idsize C) -> 24 <= c_idsize C ->
  lookup st None = Ok l -> (forall e, In e l <-> In e (f_idx (wo_fs x))) ->
  (forall n1 o1 w1 e1 n2 o2 w2 e2, in_archive C L (wo_fs x) n1 o1 w1 e1 -> in_archive C L (wo_fs x) n2 o2 w2 e2 ->
     e_key e1 = e_key e2 -> lower (h_id (wr_hdr w1)) = lower (h_id (wr_hdr w2))) ->
  Forall (Forall (good_given bufsiz (c_prefix C) (c_idsize C))) gss -> Forall (Forall small_given) gss ->
  written filt_vals filt_flags os ops args -> ~ In (o_h, None) os ->
  Forall2 (reads stdin fs) (named ops) (map (flat_map text) gss) -> once ops -> (forall f, out_file os = Some f -> writable f = true /\ ~ In f ops) ->
  odd_times o_s os = true ->
  exists there fs' pr, filter_cmd qsort bufsiz (c_prefix C) (c_idsize C) (silo_hdr_id C (wo_fs x)) st stdin writable fs args = (fs', Ok (0, pr)) /\
    answered os fs (flat_map (answer (odd_times o_r os) (odd_times o_v os) there) (List.concat gss)) fs' pr /\
    (forall p id t, In (Given p id t) (List.concat gss) ->
       (there id = true <-> exists n o w e, in_archive C L (wo_fs x) n o w e /\ lower (h_id (wr_hdr w)) = id) /\
       (forall r b, In (JStore r, Ret (Some b)) (wo_procs x) -> lower b = lower (c_prefix C ++ id) -> there id = true)).
Proof. exact fcmd_silos. Qed.
Print Assumptions C60_silos_partial.

(* C60: -h, an option which filter does not know and -o without a name are refused;
   nothing is read or written. *)
Theorem C60_refused : forall qsort bufsiz prefix id_size hdr_id st stdin writable fs args,
  (forall os ops, written filt_vals filt_flags os ops args -> In (o_h, None) os) ->
  filter_cmd qsort bufsiz prefix id_size hdr_id st stdin writable fs args = (fs, Ok (1, [])).
Proof. exact filt_refused. Qed.
Print Assumptions C60_refused.
Example C60_case_refused : forall os ops, written filt_vals filt_flags os ops [str "-rx"; str "ids"] -> In (o_h, None) os.
Proof. exact refused_line. Qed.

(* C60: a line which is no identifier, in whatever list: status 1, no answer, and the
   lists stay as they are. *)
Theorem C60_bad_line : forall qsort bufsiz prefix id_size hdr_id st stdin writable fs os ops args gss gs bad more,
  16 <= id_size -> no_hex_prefix prefix id_size ->
  Forall (Forall (good_given bufsiz prefix id_size)) gss -> Forall (good_given bufsiz prefix id_size) gs ->
  FilterSpec.refused bufsiz prefix id_size bad ->
  written filt_vals filt_flags os ops args -> ~ In (o_h, None) os ->
  Forall2 (reads stdin fs) (named ops) (map (flat_map text) gss ++ (flat_map text gs ++ bad) :: more) -> once ops ->
  (forall f, out_file os = Some f -> writable f = true /\ ~ In f ops) ->
  exists fs', filter_cmd qsort bufsiz prefix id_size hdr_id st stdin writable fs args = (fs', Ok (1, [])) /\ unanswered os fs fs'.
Proof. exact fcmd_line. Qed.
Print Assumptions C60_bad_line.
Example C60_case_bad_line : FilterSpec.refused 1024 pre 32 (str "http://x/abc" ++ [10] ++ str "more").
Proof. exact refused_case. Qed.

(* C60: a list which cannot be opened, and standard input named twice: the same. *)
Theorem C60_unreadable : forall qsort bufsiz prefix id_size hdr_id st stdin writable fs os a b r args gss,
  16 <= id_size -> no_hex_prefix prefix id_size -> Forall (Forall (good_given bufsiz prefix id_size)) gss ->
  written filt_vals filt_flags os (a ++ b :: r) args -> ~ In (o_h, None) os ->
  Forall2 (reads stdin fs) a (map (flat_map text) gss) -> (forall f, out_file os = Some f -> ~ In f (a ++ [b])) ->
  b = str "-" /\ In (str "-") a \/ b <> str "-" /\ fs b = None ->
  exists fs', filter_cmd qsort bufsiz prefix id_size hdr_id st stdin writable fs args = (fs', Ok (1, [])) /\ unanswered os fs fs'.
Proof. exact fcmd_unread. Qed.
Print Assumptions C60_unreadable.
Example C60_case_unreadable : user_files (str "b") = None /\ str "b" <> str "-" /\ Forall2 (reads [] user_files) [str "a"] (map (flat_map text) [[Given [] abc []; Blank]]).
Proof. split; [reflexivity|]. split; [discriminate|]. constructor; [right; split; [discriminate|reflexivity]|constructor]. Qed.
(* And if the file of -o cannot be written. *)
Theorem C60_unwritable : forall qsort bufsiz prefix id_size hdr_id st stdin writable fs os a r args f,
  written filt_vals filt_flags os (a :: r) args -> ~ In (o_h, None) os -> out_file os = Some f -> writable f = false ->
  filter_cmd qsort bufsiz prefix id_size hdr_id st stdin writable fs args = (fs, Ok (1, [])).
Proof. exact fcmd_unwritable. Qed.
Print Assumptions C60_unwritable.
Example C60_case_unwritable : written filt_vals filt_flags fopt [str "a"; str "-"] fline /\ ~ In (o_h, None) fopt.
Proof. exact fline_written. Qed.

(* The answer cannot take the place of the list: `filter -o ids ids' empties the list before
   reading it, answers nothing and reports success. *)
Theorem C60_overwritten_refuted : exists qsort bufsiz prefix id_size hdr_id st fs f g, sorts qsort /\ no_hex_prefix prefix id_size /\ 24 <= id_size /\
  good_given bufsiz prefix id_size g /\ fs f = Some (text g) /\ lookup st None = Ok [] /\
  written filt_vals filt_flags [(o_o, Some f)] [f] [str "-o"; f; f] /\
  exists fs', filter_cmd qsort bufsiz prefix id_size hdr_id st [] (fun _ => true) fs [str "-o"; f; f] = (fs', Ok (0, [])) /\ fs' f = Some [].
Proof. exact overwritten. Qed.
Print Assumptions C60_overwritten_refuted.
(* A list which cannot be read costs the file of -o what was in it. *)
Theorem C60_emptied_refuted : exists qsort bufsiz prefix id_size hdr_id st fs old, old <> [] /\ fs (str "out") = Some old /\ fs (str "ids") = None /\
  written filt_vals filt_flags [(o_o, Some (str "out"))] [str "ids"] [str "-o"; str "out"; str "ids"] /\
  exists fs', filter_cmd qsort bufsiz prefix id_size hdr_id st [] (fun _ => true) fs [str "-o"; str "out"; str "ids"] = (fs', Ok (1, [])) /\ fs' (str "out") = Some [].
Proof. exact lost_answer. Qed.
Print Assumptions C60_emptied_refuted.
