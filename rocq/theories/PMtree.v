(* Property theorems C49: the listing stow reads.  Statements only. *)
From Coq Require Import String.
From Verif Require Import Base MtreeModel MtreeSpec StowModel StowSpec MtreeMain MtreeRuns.
From Verif Require StowRuns.
Open Scope list_scope.
Open Scope N_scope.

(* C49 in full: of a directory, stow offers exactly the files which are not empty, in
   the order of the listing, each with its directory and digest, and keeps the
   listing; whatever the tree is, however mtree sets out its listing, and in whatever
   pieces it arrives.  This is false, see the two cases of C49_refuted below.

   Proved: all of it if no line has 8191 bytes or more and no directory has a path of
   4095 bytes or more.  [b] is the default type at the start. *)
Theorem C49_listing_partial : forall cut b n text,
  (exists name l, n = NDir name l) -> listing 8191 (dflt b) n text -> short 4095 [] n ->
  exists reads, mtree_all cut text b = Ok (reads, text) /\ List.concat reads = files [] n.
Proof. exact listing_lemma. Qed.
Print Assumptions C49_listing_partial.
Example C49_listing_case : listing 8191 (dflt false) n0 t0 /\ short 4095 [] n0 /\
  files [] n0 = [(str ".", str "f", dg); (str "./sub", str "g\040h", dg)].
Proof. exact (conj t0_listing (conj n0_short n0_files)). Qed.
Example C49_listing_run : match mtree_all (fun _ => 70) t0 false with
  | Ok (reads, tree) => tree = t0 /\ List.concat reads = [(str ".", str "f", dg); (str "./sub", str "g\040h", dg)] /\ (5 < List.length reads)%nat
  | _ => False
  end.
Proof. exact t0_run. Qed.

(* Every tree has a listing, if the names are as vis(3) makes them *)
Theorem C49_printed : forall lim n, oknode n -> Forall (fun ws => len (unwords ws) < lim) (show n) -> listing lim file n (print n).
Proof. exact print_listing. Qed.
Print Assumptions C49_printed.
Example C49_printed_case : oknode n1 /\ List.length (show n1) = 12%nat.
Proof.
  split; [|reflexivity]. destruct dot_ok as (A & B & C). exact (conj A (conj B (conj C (chain_ok 5)))).
Qed.

(* Any text at all, of lines of this size: what is found in it does not depend on
   how it is cut *)
Theorem C49_cuts_partial : forall text ls d cut cut', lines_of 8191 text ls ->
  (exists r r', mtree_all cut text d = Ok (r, text) /\ mtree_all cut' text d = Ok (r', text) /\ List.concat r = List.concat r') \/
  mtree_all cut text d = Abort /\ mtree_all cut' text d = Abort \/
  mtree_all cut text d = UB /\ mtree_all cut' text d = UB.
Proof. exact cuts_lemma. Qed.
Print Assumptions C49_cuts_partial.
Example C49_cuts_case : exists ls, lines_of 8191 t0 ls.
Proof. destruct t0_listing as (ls & lws & d & H & _). exists ls. exact H. Qed.

(* With C32: once stow has ended well, the listing of the directory is in the archive,
   and of each file that was not empty what mtree has seen or what stow has read *)
Theorem C49_archived_partial : forall idsize prefix sha meta_text data b n text tdata cuts,
  plausible idsize sha prefix meta_text ->
  (exists name l, n = NDir name l) -> listing 8191 (dflt b) n text -> short 4095 [] n ->
  Forall (fun e => len (snd e) = 64 /\ data e <> [] /\ Forall (fun x => x <> []) (data e)) (files [] n) ->
  List.concat tdata = text -> Forall (fun x => x <> []) tdata -> text <> [] ->
  exists reads, mtree_all cuts text b = Ok (reads, text) /\
  let tree := mkJ false (sha text) tdata in
  forall arch w, reach idsize prefix sha meta_text tree (tree_new idsize tree) (map (map (subj_of data)) reads) arch w -> c_up (w_c w) = false ->
  In (cut idsize (sha text)) (s_arch (w_s w)) /\
  forall e, In e (files [] n) -> In (cut idsize (snd e)) (s_arch (w_s w)) \/ In (cut idsize (sha (List.concat (data e)))) (s_arch (w_s w)).
Proof. exact archived_lemma. Qed.
Print Assumptions C49_archived_partial.
Example C49_archived_case : plausible 16 StowRuns.sha0 (str "id:/") StowRuns.meta0 /\
  Forall (fun e => len (snd e) = 64 /\ [str "foo"] <> [] /\ Forall (fun x => x <> []) [str "foo"]) (files [] n0).
Proof.
  split; [exact StowRuns.plausible0|]. rewrite n0_files. repeat constructor; discriminate.
Qed.

(* C49_refuted, first case: a directory with a path of 4095 bytes or more, as vis(3)
   writes it.  The name is put behind the end of a buffer. *)
Theorem C49_deep : forall cut b n text, (exists name l, n = NDir name l) -> listing 8191 (dflt b) n text -> ~ short 4095 [] n ->
  mtree_all cut text b = UB.
Proof. exact deep_lemma. Qed.
Print Assumptions C49_deep.
Theorem C49_deep_refuted : exists n text, (exists name l, n = NDir name l) /\ listing 8191 file n text /\ short 5008 [] n /\
  forall cut, mtree_all cut text false = UB.
Proof. exact deep_refuted. Qed.
Print Assumptions C49_deep_refuted.

(* Second case: a line which does not fit into the buffer.  It is taken for the end of
   the listing, and what is behind it is not stowed. *)
Theorem C49_limit_refuted : exists n text, (exists name l, n = NDir name l) /\ listing 8300 file n text /\ files [] n <> [] /\
  forall cut, exists reads tree, mtree_all cut text false = Ok (reads, tree) /\ List.concat reads = [] /\ tree <> text.
Proof. exact limit_refuted. Qed.
Print Assumptions C49_limit_refuted.
