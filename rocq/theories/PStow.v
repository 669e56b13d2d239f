(* Property theorems C32: stow and stevedore.  Statements only. *)
From Coq Require Import String.
From Verif Require Import Base StowModel StowSpec StowMain StowTerm StowRuns.
Open Scope string_scope.
Open Scope list_scope.
Open Scope N_scope.

(* C32 in full: of the files offered, those transferred are exactly those which the
   server reports missing, each once and in order, however the exchange is batched.
   This is false, see the three cases of C32_refuted below.

   In every state of every exchange: however mtree's output comes in, in whatever
   order the two ends, the filter commands and the store commands get to run,
   however many files there are, whatever others store meanwhile, and whether or
   not the tree itself is in the archive: the server has answered for the first
   files of the list, in their order, each once, and truthfully.  The identifiers
   reported are those of the files it called missing.  What has been transferred are
   the contents of the first of these, in the same order, each once, the last
   perhaps not to its end; and what is asked is one identifier for each of the first
   files of the list, for at least all that have been answered. *)
Theorem C32_exchange : forall idsize prefix sha meta_text tree reads arch,
  plausible idsize sha prefix meta_text -> Forall fine_file (List.concat reads) -> fine_tree sha tree ->
  forall (ok : label -> Prop) w, reach idsize prefix sha meta_text tree ok reads arch w ->
  exists ans rest, map fst ans ++ rest = List.concat reads ++ [tree] /\
    truthful idsize arch (s_arch (w_s w)) ans /\
    reported (w_hsc w) = map (key idsize) (missing ans) /\
    in_turn (transfers (w_hcs w)) (missing ans) /\
    exists wait more, map fst ans ++ wait ++ more = List.concat reads ++ [tree] /\
      Forall2 (fun d x => cut idsize d = key idsize x) (asked (w_hcs w)) (map fst ans ++ wait).
Proof. exact exchange_lemma. Qed.
Print Assumptions C32_exchange.
Example C32_exchange_case : plausible 16 sha0 (str "id:/") meta0 /\ Forall fine_file [a0; b0; c0; c2] /\ fine_tree sha0 tree0.
Proof. exact (conj plausible0 fine0). Qed.

(* When the client says STOWED, and the filter command has not found the tree itself
   in the archive: all files and the tree have been answered for; those missing have
   been transferred, all and each to its end, and are in the archive; the metadata
   names the tree, and each file which has become something else since mtree saw it
   with the identifier of what it has become.  Nothing is left over. *)
Theorem C32_stowed_partial : forall idsize prefix sha meta_text tree reads arch,
  plausible idsize sha prefix meta_text -> Forall fine_file (List.concat reads) -> fine_tree sha tree ->
  forall w, reach idsize prefix sha meta_text tree (tree_new idsize tree) reads arch w -> c_up (w_c w) = false ->
  exists ans, map fst ans = List.concat reads ++ [tree] /\
    truthful idsize arch (s_arch (w_s w)) ans /\
    reported (w_hsc w) = map (key idsize) (missing ans) /\
    transfers (w_hcs w) = (map content (missing ans), []) /\
    (forall x, In x (missing ans) -> In (cut idsize (sha (content x))) (s_arch (w_s w))) /\
    metas (w_hcs w) = j_dig tree :: meta_text (changes idsize sha (missing ans)) ++ [[]] /\
    Forall2 (fun d x => cut idsize d = key idsize x) (asked (w_hcs w)) (map fst ans) /\
    s_run (w_s w) = [] /\ s_store (w_s w) = None /\ s_meta (w_s w) = None /\ s_mrun (w_s w) = [].
Proof. exact stowed_lemma. Qed.
Print Assumptions C32_stowed_partial.
Example C32_stowed_case : exists w,
  reach 16 (str "id:/") sha0 meta0 tree0 (tree_new 16 tree0) [[a0]; [b0; c0]] [key 16 a0] w /\ c_up (w_c w) = false /\
  transfers (w_hcs w) = ([str "b"; str "c, again"; str "#mtree"], []) /\ reported (w_hsc w) = [key 16 b0; key 16 c0; key 16 tree0] /\
  changes 16 sha0 [b0; c0; tree0] = [(j_dig c0, cut 16 (sha0 (str "c, again")))].
Proof. exact good_lemma. Qed.

(* Until then, if the filter command does not find the tree, neither end fails,
   whatever happens next. *)
Theorem C32_no_failure_partial : forall idsize prefix sha meta_text tree reads arch,
  plausible idsize sha prefix meta_text -> Forall fine_file (List.concat reads) -> fine_tree sha tree ->
  forall w l r, reach idsize prefix sha meta_text tree (tree_new idsize tree) reads arch w -> c_up (w_c w) = true ->
  step idsize prefix sha meta_text tree l w = Some r -> exists w', r = Ok w'.
Proof. exact no_failure_lemma. Qed.
Print Assumptions C32_no_failure_partial.
Example C32_no_failure_case : reach 16 (str "id:/") sha0 meta0 tree0 (tree_new 16 tree0) [[a0]; [b0; c0]] [key 16 a0] (start [[a0]; [b0; c0]] [key 16 a0]) /\
  c_up (w_c (start [[a0]; [b0; c0]] [key 16 a0])) = true /\
  exists w', step 16 (str "id:/") sha0 meta0 tree0 (LRound false true true) (start [[a0]; [b0; c0]] [key 16 a0]) = Some (Ok w').
Proof. exact start_lemma. Qed.

(* And the two do not wait for each other: something of their own can happen. *)
Theorem C32_goes_on_partial : forall idsize prefix sha meta_text tree reads arch,
  plausible idsize sha prefix meta_text -> Forall fine_file (List.concat reads) -> fine_tree sha tree ->
  forall w, reach idsize prefix sha meta_text tree (tree_new idsize tree) reads arch w -> c_up (w_c w) = true ->
  exists l w', not_other l /\ allowed idsize l w /\ step idsize prefix sha meta_text tree l w = Some (Ok w') /\
    (~ In (key idsize tree) (s_arch (w_s w)) -> tree_new idsize tree l).
Proof. exact goes_on_lemma. Qed.
Print Assumptions C32_goes_on_partial.

(* That cannot go on for ever, from any state at all, even if others store as many
   objects as they like in between: so it ends with STOWED. *)
Theorem C32_finite : forall idsize prefix sha meta_text tree w,
  Acc (fun w2 w => exists w1 l, others idsize prefix sha meta_text tree w w1 /\ not_other l /\
    step idsize prefix sha meta_text tree l w1 = Some (Ok w2)) w.
Proof. exact finite_lemma. Qed.
Print Assumptions C32_finite.

(* The tree is in the archive, two files of it are not, as it may happen when a file
   had changed when it was stowed the first time.  Then the client may send the
   metadata before the last file, and say STOWED with half of it sent: what was
   reported missing is not in the archive, and nothing more happens but the end of
   the connection. *)
Theorem C32_there_refuted : exists w, reach 16 (str "id:/") sha0 meta0 tree0 any [[b0; c2]] [key 16 tree0] w /\
  c_up (w_c w) = false /\ w_sc w = [] /\ w_cs w = [] /\
  reported (w_hsc w) = [key 16 b0; key 16 c2] /\ metas (w_hcs w) <> [] /\
  transfers (w_hcs w) = ([content b0], content c2) /\ s_store (w_s w) <> None /\ ~ In (key 16 c2) (s_arch (w_s w)) /\
  (forall l w', not_other l -> step0 l w = Some (Ok w') -> l = LEof) /\
  (forall l w1 w', step0 LEof w = Some (Ok w1) -> not_other l -> step0 l w1 = Some (Ok w') -> False).
Proof. exact there_lemma. Qed.
Print Assumptions C32_there_refuted.

(* A file has become empty since mtree saw it: the server fails. *)
Theorem C32_empty_refuted : exists w, reach 16 (str "id:/") sha0 meta0 tree0 (tree_new 16 tree0) [[e0]] [] w /\ c_up (w_c w) = true /\
  reported (w_hsc w) = [key 16 e0; key 16 tree0] /\ step0 LInput w = Some Abort.
Proof. exact empty_lemma. Qed.
Print Assumptions C32_empty_refuted.

(* The server notices the end of the filter command after all is stowed: the client
   fails, although it has said STOWED. *)
Theorem C32_late_refuted : exists w, reach 16 (str "id:/") sha0 meta0 tree0 (tree_new 16 tree0) [[b0]] [] w /\ c_up (w_c w) = false /\
  transfers (w_hcs w) = ([content b0; content tree0], []) /\ w_sc w = [RFilter []] /\
  step0 (LRound false true false) w = Some Abort.
Proof. exact late_lemma. Qed.
Print Assumptions C32_late_refuted.
