(* Proofs about the command line of filter. *)
From Coq Require Import String Permutation.
From Coq Require Import ZifyBool ZifyNat ZifyN.
From Verif Require Import Base BaseLemmas ListLemmas IndexModel IndexSpec IndexSysModel IndexSysSpec HeaderModel ProgModel StoreModel StoreSpec StoreSysModel
  StoreToy StoreRuns FilterModel FilterSpec FilterProofs FilterMain CmdModel CmdSpec CmdMain GetcModel GetcSpec GetcMain FcmdModel FcmdSpec.
Open Scope string_scope.
Open Scope list_scope.
Open Scope N_scope.

Lemma filt_getopt os ops args : written filt_vals filt_flags os ops args <-> getopt "ho:rsv" args = (map ev os, ops).
Proof.
  assert (TV : forall c, takes (str "ho:rsv") c = Some true <-> In c filt_vals) by takes_tac ([104;111;58;114;115;118]).
  assert (TF : forall c, takes (str "ho:rsv") c = Some false <-> In c filt_flags) by takes_tac ([104;111;58;114;115;118]).
  split; intros H.
  - eapply loop_written; eauto; try (cbn; unfold o_h, o_o, o_r, o_s, o_v; lia).
  - eapply loop_inv; eauto; try (cbn; unfold o_h, o_o, o_r, o_s, o_v; lia).
Qed.

Lemma filt_opts_spec : forall os o,
  Forall (fun o => match snd o with Some _ => In (fst o) filt_vals | None => In (fst o) filt_flags end) os ->
  ~ In (o_h, None) os ->
  filter_opts o (map ev os) = Some (mkFO (with_o (fo_o o) (CmdSpec.given o_o os)) (xorb (fo_r o) (odd_times o_r os))
    (xorb (fo_s o) (odd_times o_s os)) (xorb (fo_v o) (odd_times o_v os))).
Proof.
  induction os as [|[c v] os IH]; intros o WF NH.
  - cbn. rewrite !xorb_false_r. destruct o. auto.
  - inversion_clear WF as [|? ? W WF']. cbn [fst snd] in W. assert (NH' : ~ In (o_h, None) os) by (cbn in NH; tauto).
    cbn [map]. unfold ev at 1. cbn [fst snd]. destruct v as [v|].
    + destruct W as [<-|[]]. unfold o_o at 1. cbn [filter_opts]. rewrite IH by auto. cbn [fo_o fo_r fo_s fo_v odd_times fst].
      change (o_o =? o_r) with false. change (o_o =? o_s) with false. change (o_o =? o_v) with false. cbv iota.
      change (CmdSpec.given o_o ((o_o, Some v) :: os)) with (v :: CmdSpec.given o_o os). rewrite <- with_o_cons. auto.
    + change (CmdSpec.given o_o ((c, None) :: os)) with (CmdSpec.given o_o os).
      destruct W as [<-|[<-|[<-|[<-|[]]]]]; [exfalso; apply NH; left; auto| | |].
      * unfold o_r at 1. cbn [filter_opts]. rewrite IH by auto. cbn [fo_o fo_r fo_s fo_v odd_times fst].
        change (o_r =? o_s) with false. change (o_r =? o_v) with false. change (o_r =? o_r) with true. cbv iota.
        f_equal. f_equal. destruct (fo_r o), (odd_times o_r os); auto.
      * unfold o_s at 1. cbn [filter_opts]. rewrite IH by auto. cbn [fo_o fo_r fo_s fo_v odd_times fst].
        change (o_s =? o_r) with false. change (o_s =? o_v) with false. change (o_s =? o_s) with true. cbv iota.
        f_equal. f_equal. destruct (fo_s o), (odd_times o_s os); auto.
      * unfold o_v at 1. cbn [filter_opts]. rewrite IH by auto. cbn [fo_o fo_r fo_s fo_v odd_times fst].
        change (o_v =? o_r) with false. change (o_v =? o_s) with false. change (o_v =? o_v) with true. cbv iota.
        f_equal. f_equal. destruct (fo_v o), (odd_times o_v os); auto.
Qed.
Lemma filt_opts_ev : forall l o x, filter_opts o l = Some x -> exists os, l = map ev os /\ ~ In (o_h, None) os.
Proof.
  induction l as [|e l IH]; intros o x H; [exists []; auto|]. destruct e as [c v|]; [|discriminate].
  destruct (N.eq_dec c o_h) as [->|NE]; [destruct v; discriminate|].
  assert (exists os, l = map ev os /\ ~ In (o_h, None) os) as (os & -> & NH).
  { cbn [filter_opts] in H. repeat match type of H with context [match ?a with _ => _ end] => destruct a; try discriminate end; eauto. }
  exists ((c, v) :: os). split; [auto|]. intros [E|E]; [injection E as -> _; auto|auto].
Qed.

Section Fcmd.
Variable qsort : list scand -> list scand.
Variable bufsiz : nat.
Variable prefix : bytes.
Variable id_size : N.
Variable hdr_id : N -> N -> res bytes.
Variable st : ifs.
Variable stdin : bytes.
Variable writable : bytes -> bool.
Notation cmd := (filter_cmd qsort bufsiz prefix id_size hdr_id st stdin writable).
Notation rargs := (read_args bufsiz prefix id_size stdin).

Lemma filt_refused fs args : (forall os ops, written filt_vals filt_flags os ops args -> In (o_h, None) os) -> cmd fs args = (fs, Ok (1, [])).
Proof.
  intros H. unfold filter_cmd. destruct (getopt "ho:rsv" args) as [evs ops] eqn:G. destruct (filter_opts _ evs) as [o|] eqn:E; [|auto].
  destruct (filt_opts_ev _ _ _ E) as (os & -> & NH). apply filt_getopt in G. exfalso. apply NH. eapply H; eauto.
Qed.

Lemma put_same fs f d : put fs f d f = Some d.
Proof. unfold put. rewrite bytes_eqb_refl. auto. Qed.
Lemma put_other fs f d g : g <> f -> put fs f d g = fs g.
Proof. intros N. unfold put. destruct (bytes_eqb g f) eqn:E; auto. apply bytes_eqb_true in E. contradiction. Qed.

(* the loop over the names *)
Lemma args_read fs : forall ops cs used, Forall2 (reads stdin fs) ops cs -> once ops -> (used = true -> ~ In (str "-") ops) ->
  rargs fs used ops = read_files bufsiz prefix id_size cs.
Proof.
  induction ops as [|a ops IH]; intros cs used F O U; inversion_clear F as [|? c ? cs' R F']; [auto|]. cbn [read_args read_files].
  assert (O' : once ops) by (intros x y z ->; apply (O (a :: x) y z); auto).
  destruct R as [(-> & ->)|(N & E)].
  - rewrite bytes_eqb_refl. destruct used; [exfalso; apply U; [auto|left; auto]|]. cbn [orb]. destruct (read_file _ _ _ _ stdin) as [[l|]| | |]; auto. cbn [bind].
    rewrite (IH cs' true F' O'); [auto|]. intros _ I. apply in_split in I. destruct I as (x & y & ->). apply (O [] x y). auto.
  - destruct (bytes_eqb a (str "-")) eqn:Q; [apply bytes_eqb_true in Q; contradiction|]. rewrite E. destruct (read_file _ _ _ _ c) as [[l|]| | |]; auto. cbn [bind].
    rewrite orb_false_r. rewrite (IH cs' used F' O'); [auto|]. intros X Y. apply (U X). right. auto.
Qed.

Lemma reads_put fs f d ops cs : ~ In f ops -> Forall2 (reads stdin fs) ops cs -> Forall2 (reads stdin (put fs f d)) ops cs.
Proof.
  intros N F. revert N. induction F as [|a c ops cs R F IH]; intros N; constructor; [|apply IH; cbn in N; tauto].
  destruct R as [R|(R1 & R2)]; [left; auto|right]. split; auto. rewrite put_other; auto. intros ->. apply N. left; auto.
Qed.

(* with lists which can be read *)
Lemma cmd_reads os ops args fs cs : written filt_vals filt_flags os ops args -> ~ In (o_h, None) os ->
  Forall2 (reads stdin fs) (named ops) cs -> once ops -> (forall f, out_file os = Some f -> writable f = true /\ ~ In f ops) ->
  (forall out, main_filter qsort bufsiz prefix id_size (odd_times o_r os) (odd_times o_s os) (odd_times o_v os) hdr_id cs st = Ok (Some out) ->
    exists fs' pr, cmd fs args = (fs', Ok (0, pr)) /\ answered os fs out fs' pr) /\
  (main_filter qsort bufsiz prefix id_size (odd_times o_r os) (odd_times o_s os) (odd_times o_v os) hdr_id cs st = Ok None ->
    exists fs', cmd fs args = (fs', Ok (1, [])) /\ unanswered os fs fs').
Proof.
  intros W NH F O OF. pose proof (written_wf _ _ _ _ _ W) as WF. apply filt_getopt in W. unfold filter_cmd. rewrite W, filt_opts_spec by auto.
  cbn [fo_o fo_r fo_s fo_v]. rewrite !xorb_false_l. change (with_o None (CmdSpec.given o_o os)) with (out_file os). unfold answered, unanswered.
  set (fs1 := match out_file os with Some f => put fs f [] | None => fs end).
  assert (E1 : open_out writable fs (out_file os) = Some fs1).
  { unfold open_out, fs1. destruct (out_file os) as [f|]; auto. destruct (OF f eq_refl) as (-> & _). auto. }
  rewrite E1.
  assert (U : forall g, out_file os <> Some g -> fs1 g = fs g).
  { intros g NG. unfold fs1. destruct (out_file os) as [f|]; auto. apply put_other. congruence. }
  assert (X : exists l0 l1, (match ops with [] => read_file (List.length stdin) bufsiz prefix id_size stdin | _ => Ok (Some []) end) = l0 /\ rargs fs1 false ops = l1 /\
    read_files bufsiz prefix id_size cs = let* a := l0 in match a with None => Ok None | Some a => let* b := l1 in Ok (option_map (app a) b) end).
  { destruct ops as [|a ops].
    - eexists. eexists. split; [reflexivity|]. split; [reflexivity|]. cbn [named] in F. inversion_clear F as [|? c ? cs' R F']. inversion F'. subst.
      destruct R as [(_ & ->)|(R & _)]; [|exfalso; apply R; reflexivity]. reflexivity.
    - eexists. eexists. split; [reflexivity|]. split; [apply (args_read fs1 (a :: ops) cs)|]; auto; try discriminate.
      + unfold fs1. destruct (out_file os) as [f|]; auto. apply reads_put; auto. apply (OF f eq_refl).
      + cbn [bind]. destruct (read_files _ _ _ cs) as [[x|]| | |]; auto. }
  destruct X as (l0 & l1 & -> & -> & X). unfold main_filter. rewrite X. destruct l0 as [[a|]| | |]; cbn [bind]; try (split; [intros out|]; intros H; discriminate H).
  2:{ split; [intros out H; discriminate H|]. intros _. exists fs. auto. }
  destruct l1 as [[b|]| | |]; cbn [bind option_map]; try (split; [intros out|]; intros H; discriminate H).
  2:{ split; [intros out H; discriminate H|]. intros _. exists fs1. auto. }
  destruct (filter_rest _ _ _ _ _ _ _) as [out| | |]; cbn [bind]; split; try (intros H; discriminate H); intros out' H; try discriminate H.
  injection H as <-. unfold fs1 in *. destruct (out_file os) as [f|]; [|exists fs, out; auto].
  exists (put (put fs f []) f out), []. split; auto. split; auto. split; [apply put_same|]. intros g NG. rewrite put_other by auto. apply put_other; auto.
Qed.

(* with one which cannot *)
Lemma args_unread fs : forall a cs used b r, Forall2 (reads stdin fs) a cs ->
  (exists l, read_files bufsiz prefix id_size cs = Ok l) ->
  (if bytes_eqb b (str "-") then used = true \/ In (str "-") a else fs b = None) -> rargs fs used (a ++ b :: r) = Ok None.
Proof.
  induction a as [|x a IH]; intros cs used b r F (l & E) B; inversion F as [|? c ? cs' R F']; subst; cbn [app read_args].
  - destruct (bytes_eqb b (str "-")); [destruct B as [->|[]]; auto|]. rewrite B. auto.
  - cbn [read_files] in E. destruct R as [(-> & ->)|(N & EX)].
    + rewrite bytes_eqb_refl. destruct used; auto. revert E. destruct (read_file _ _ _ _ stdin) as [[l'|]| | |]; intros E; try discriminate E; auto. cbn [bind orb] in *.
      assert (E' : exists z, read_files bufsiz prefix id_size cs' = Ok z) by (revert E; destruct (read_files _ _ _ cs') as [z| | |]; intros E; cbn [bind] in E; [exists z; auto|discriminate E..]).
      rewrite (IH cs' true b r F' E'); auto. destruct (bytes_eqb b (str "-")); auto.
    + destruct (bytes_eqb x (str "-")) eqn:Q; [apply bytes_eqb_true in Q; contradiction|]. rewrite EX. revert E. destruct (read_file _ _ _ _ c) as [[l'|]| | |]; intros E; try discriminate E; auto.
      cbn [bind] in *. rewrite orb_false_r.
      assert (E' : exists z, read_files bufsiz prefix id_size cs' = Ok z) by (revert E; destruct (read_files _ _ _ cs') as [z| | |]; intros E; cbn [bind] in E; [exists z; auto|discriminate E..]).
      rewrite (IH cs' used b r F' E'); auto. destruct (bytes_eqb b (str "-")); auto. destruct B as [B|[B|B]]; auto; subst x; contradiction.
Qed.

Lemma cmd_unread os a b r args fs cs : written filt_vals filt_flags os (a ++ b :: r) args -> ~ In (o_h, None) os ->
  Forall2 (reads stdin fs) a cs -> (exists l, read_files bufsiz prefix id_size cs = Ok l) -> (forall f, out_file os = Some f -> ~ In f (a ++ [b])) ->
  b = str "-" /\ In (str "-") a \/ b <> str "-" /\ fs b = None ->
  exists fs', cmd fs args = (fs', Ok (1, [])) /\ unanswered os fs fs'.
Proof.
  intros W NH F RF OF B. pose proof (written_wf _ _ _ _ _ W) as WF. apply filt_getopt in W. unfold filter_cmd. rewrite W, filt_opts_spec by auto.
  cbn [fo_o fo_r fo_s fo_v]. rewrite !xorb_false_l. change (with_o None (CmdSpec.given o_o os)) with (out_file os). unfold unanswered.
  replace (match a ++ b :: r with [] => read_file (List.length stdin) bufsiz prefix id_size stdin | _ => Ok (Some []) end) with (@Ok (option (list cand)) (Some [])) by (destruct a; auto).
  destruct (open_out writable fs (out_file os)) as [fs1|] eqn:EO; [|exists fs; auto].
  assert (X : rargs fs1 false (a ++ b :: r) = Ok None).
  { apply (args_unread fs1 a cs); auto.
    - unfold open_out in EO. destruct (out_file os) as [f|]; [|injection EO as <-; auto]. destruct (writable f); [|discriminate EO]. injection EO as <-.
      apply reads_put; auto. intros I. apply (OF f eq_refl), in_or_app. auto.
    - destruct B as [(-> & B)|(N & B)]; [rewrite bytes_eqb_refl; auto|]. destruct (bytes_eqb b (str "-")) eqn:Q; [apply bytes_eqb_true in Q; contradiction|].
      unfold open_out in EO. destruct (out_file os) as [f|]; [|injection EO as <-; auto]. destruct (writable f); [|discriminate EO]. injection EO as <-.
      rewrite put_other; auto. intros ->. apply (OF f eq_refl), in_or_app. right. left. auto. }
  rewrite X. exists fs1. split; auto. intros g NG. unfold open_out in EO. destruct (out_file os) as [f|]; [|injection EO as <-; auto].
  destruct (writable f); [|discriminate EO]. injection EO as <-. apply put_other. congruence.
Qed.
End Fcmd.

Section Arch.
Variable C : conf.
Variable L : zlib.
Hypothesis CO : conf_ok C.
Hypothesis ZO : zlib_ok L.

Lemma fcmd_archive : forall x qsort bufsiz hdr_id gss st l stdin writable fs os ops args,
  reach C L x -> (forall j p, In (j, p) (wo_procs x) -> exists a, p = Ret a) ->
  sorts qsort -> no_hex_prefix (c_prefix C) (c_idsize C) -> 24 <= c_idsize C ->
  lookup st None = Ok l -> (forall e, In e l <-> In e (f_idx (wo_fs x))) ->
  Forall (Forall (good_given bufsiz (c_prefix C) (c_idsize C))) gss -> Forall (Forall small_given) gss ->
  written filt_vals filt_flags os ops args -> ~ In (o_h, None) os ->
  Forall2 (reads stdin fs) (named ops) (map (flat_map text) gss) -> once ops -> (forall f, out_file os = Some f -> writable f = true /\ ~ In f ops) ->
  odd_times o_s os = false ->
  exists there fs' pr, filter_cmd qsort bufsiz (c_prefix C) (c_idsize C) hdr_id st stdin writable fs args = (fs', Ok (0, pr)) /\
    answered os fs (flat_map (answer (odd_times o_r os) (odd_times o_v os) there) (List.concat gss)) fs' pr /\
    (forall p id t, In (Given p id t) (List.concat gss) ->
       (there id = true <-> exists n o w e, in_archive C L (wo_fs x) n o w e /\ pad 24 (h_id (wr_hdr w)) = firstn 24 id) /\
       (forall r b, In (JStore r, Ret (Some b)) (wo_procs x) -> lower b = lower (c_prefix C ++ id) -> there id = true)).
Proof.
  intros x qsort bufsiz hdr_id gss st l stdin writable fs os ops args R AD Hq Hp Hi El Hl Hg Hs W NH F O OF OS.
  destruct (filter_archive C L CO ZO x qsort bufsiz (odd_times o_r os) (odd_times o_v os) hdr_id gss st l) as (there & E & T); auto. rewrite <- OS in E.
  destruct (cmd_reads qsort bufsiz (c_prefix C) (c_idsize C) hdr_id st stdin writable os ops args fs _ W NH F O OF) as (X & _).
  destruct (X _ E) as (fs' & pr & X1 & X2). exists there, fs', pr. auto.
Qed.

Lemma fcmd_silos : forall x qsort bufsiz gss st l stdin writable fs os ops args,
  reach C L x -> (forall j p, In (j, p) (wo_procs x) -> exists a, p = Ret a) ->
  sorts qsort -> no_hex_prefix (c_prefix C) (c_idsize C) -> 24 <= c_idsize C ->
  lookup st None = Ok l -> (forall e, In e l <-> In e (f_idx (wo_fs x))) ->
  (forall n1 o1 w1 e1 n2 o2 w2 e2, in_archive C L (wo_fs x) n1 o1 w1 e1 -> in_archive C L (wo_fs x) n2 o2 w2 e2 ->
     e_key e1 = e_key e2 -> lower (h_id (wr_hdr w1)) = lower (h_id (wr_hdr w2))) ->
  Forall (Forall (good_given bufsiz (c_prefix C) (c_idsize C))) gss -> Forall (Forall small_given) gss ->
  written filt_vals filt_flags os ops args -> ~ In (o_h, None) os ->
  Forall2 (reads stdin fs) (named ops) (map (flat_map text) gss) -> once ops -> (forall f, out_file os = Some f -> writable f = true /\ ~ In f ops) ->
  odd_times o_s os = true ->
  exists there fs' pr, filter_cmd qsort bufsiz (c_prefix C) (c_idsize C) (silo_hdr_id C (wo_fs x)) st stdin writable fs args = (fs', Ok (0, pr)) /\
    answered os fs (flat_map (answer (odd_times o_r os) (odd_times o_v os) there) (List.concat gss)) fs' pr /\
    (forall p id t, In (Given p id t) (List.concat gss) ->
       (there id = true <-> exists n o w e, in_archive C L (wo_fs x) n o w e /\ lower (h_id (wr_hdr w)) = id) /\
       (forall r b, In (JStore r, Ret (Some b)) (wo_procs x) -> lower b = lower (c_prefix C ++ id) -> there id = true)).
Proof.
  intros x qsort bufsiz gss st l stdin writable fs os ops args R AD Hq Hp Hi El Hl Hap Hg Hs W NH F O OF OS.
  destruct (filter_silos C L CO ZO x qsort bufsiz (odd_times o_r os) (odd_times o_v os) gss st l) as (there & E & T); auto. rewrite <- OS in E.
  destruct (cmd_reads qsort bufsiz (c_prefix C) (c_idsize C) (silo_hdr_id C (wo_fs x)) st stdin writable os ops args fs _ W NH F O OF) as (X & _).
  destruct (X _ E) as (fs' & pr & X1 & X2). exists there, fs', pr. auto.
Qed.
End Arch.

Lemma fcmd_line : forall qsort bufsiz prefix id_size hdr_id st stdin writable fs os ops args gss gs bad more,
  16 <= id_size -> no_hex_prefix prefix id_size ->
  Forall (Forall (good_given bufsiz prefix id_size)) gss -> Forall (good_given bufsiz prefix id_size) gs ->
  FilterSpec.refused bufsiz prefix id_size bad ->
  written filt_vals filt_flags os ops args -> ~ In (o_h, None) os ->
  Forall2 (reads stdin fs) (named ops) (map (flat_map text) gss ++ (flat_map text gs ++ bad) :: more) -> once ops ->
  (forall f, out_file os = Some f -> writable f = true /\ ~ In f ops) ->
  exists fs', filter_cmd qsort bufsiz prefix id_size hdr_id st stdin writable fs args = (fs', Ok (1, [])) /\ unanswered os fs fs'.
Proof.
  intros qsort bufsiz prefix id_size hdr_id st stdin writable fs os ops args gss gs bad more I HP G1 G2 RF W NH F O OF.
  destruct (cmd_reads qsort bufsiz prefix id_size hdr_id st stdin writable os ops args fs _ W NH F O OF) as (_ & X).
  apply X. apply filter_refuses; auto.
Qed.

Lemma fcmd_unread : forall qsort bufsiz prefix id_size hdr_id st stdin writable fs os a b r args gss,
  16 <= id_size -> no_hex_prefix prefix id_size -> Forall (Forall (good_given bufsiz prefix id_size)) gss ->
  written filt_vals filt_flags os (a ++ b :: r) args -> ~ In (o_h, None) os ->
  Forall2 (reads stdin fs) a (map (flat_map text) gss) -> (forall f, out_file os = Some f -> ~ In f (a ++ [b])) ->
  b = str "-" /\ In (str "-") a \/ b <> str "-" /\ fs b = None ->
  exists fs', filter_cmd qsort bufsiz prefix id_size hdr_id st stdin writable fs args = (fs', Ok (1, [])) /\ unanswered os fs fs'.
Proof.
  intros qsort bufsiz prefix id_size hdr_id st stdin writable fs os a b r args gss I HP G W NH F OF B.
  eapply cmd_unread; eauto. rewrite read_files_good by (auto; lia). eauto.
Qed.

Lemma fcmd_unwritable : forall qsort bufsiz prefix id_size hdr_id st stdin writable fs os a r args f,
  written filt_vals filt_flags os (a :: r) args -> ~ In (o_h, None) os -> out_file os = Some f -> writable f = false ->
  filter_cmd qsort bufsiz prefix id_size hdr_id st stdin writable fs args = (fs, Ok (1, [])).
Proof.
  intros qsort bufsiz prefix id_size hdr_id st stdin writable fs os a r args f W NH OF WR.
  pose proof (written_wf _ _ _ _ _ W) as WF. apply filt_getopt in W. unfold filter_cmd. rewrite W, filt_opts_spec by auto.
  cbn [fo_o]. change (with_o None (CmdSpec.given o_o os)) with (out_file os). rewrite OF. unfold open_out. rewrite WR. auto.
Qed.

(* ------------------------------------------------------------------ *)
Definition fline : list bytes := [str "-vo"; str "out"; str "a"; str "-"].
Definition fopt : list (N * option bytes) := [(o_v, None); (o_o, Some (str "out"))].
Lemma fline_written : written filt_vals filt_flags fopt [str "a"; str "-"] fline /\ ~ In (o_h, None) fopt.
Proof.
  split; [|intros [H|[H|[]]]; discriminate H]. apply (wr_next filt_vals filt_flags [o_v] o_o (str "out") [] [str "a"; str "-"]).
  - constructor; [right; right; right; left; auto|constructor].
  - left; auto.
  - apply wr_end. exact I.
Qed.
Lemma once_nodup ops : NoDup ops -> once ops.
Proof. intros ND a b c ->. apply NoDup_remove_2 in ND. apply ND, in_or_app. right. apply in_or_app. right. left. auto. Qed.

Definition list_a : bytes := flat_map text [Given [] abc []; Blank].
Definition list_in : bytes := flat_map text [Given pre abd (str " x")].
Definition user_files : files := fun f => if bytes_eqb f (str "a") then Some list_a else None.
Lemma fline_case : written filt_vals filt_flags fopt [str "a"; str "-"] fline /\ ~ In (o_h, None) fopt /\
  Forall2 (reads list_in user_files) (named [str "a"; str "-"]) (map (flat_map text) [[Given [] abc []; Blank]; [Given pre abd (str " x")]]) /\
  once [str "a"; str "-"] /\ ~ In (str "out") [str "a"; str "-"] /\ out_file fopt = Some (str "out") /\
  Forall (Forall (good_given 1024 pre 32)) [[Given [] abc []; Blank]; [Given pre abd (str " x")]] /\ no_hex_prefix pre 32 /\
  Forall (Forall small_given) [[Given [] abc []; Blank]; [Given pre abd (str " x")]] /\ odd_times o_s fopt = false.
Proof.
  split; [apply fline_written|]. split; [apply fline_written|]. split.
  { constructor; [right; split; [discriminate|reflexivity]|]. constructor; [left; auto|constructor]. }
  split; [apply once_nodup; repeat constructor; cbn; intuition discriminate|]. split; [intros [H|[H|[]]]; discriminate H|]. split; [reflexivity|]. split.
  { repeat apply Forall_cons; try apply Forall_nil.
    - apply given_ok; [hex|pla|reflexivity|apply Nat.ltb_lt; reflexivity].
    - split; [apply Forall_nil|]. split; [apply Nat.ltb_lt; reflexivity|exact I].
    - split; [pla|split; [apply Nat.ltb_lt; reflexivity|split; [right; reflexivity|split; [hex|reflexivity]]]]. }
  split; [apply pre_ok; lia|]. split; [repeat constructor|reflexivity].
Qed.

(* the list is the file of -o *)
Lemma overwritten : exists qsort bufsiz prefix id_size hdr_id st fs f g, sorts qsort /\ no_hex_prefix prefix id_size /\ 24 <= id_size /\
  good_given bufsiz prefix id_size g /\ fs f = Some (text g) /\ lookup st None = Ok [] /\
  written filt_vals filt_flags [(o_o, Some f)] [f] [str "-o"; f; f] /\
  exists fs', filter_cmd qsort bufsiz prefix id_size hdr_id st [] (fun _ => true) fs [str "-o"; f; f] = (fs', Ok (0, [])) /\ fs' f = Some [].
Proof.
  exists isort, 1024%nat, pre, 32, (fun _ _ => Abort), ifs_empty, (fun f => if bytes_eqb f (str "ids") then Some (text (Given [] abc [])) else None), (str "ids"), (Given [] abc []).
  split; [apply isort_sorts|]. split; [apply pre_ok; lia|]. split; [lia|]. split; [apply given_ok; [hex|pla|reflexivity|apply Nat.ltb_lt; reflexivity]|].
  split; [reflexivity|]. split; [reflexivity|]. split.
  { apply (wr_next filt_vals filt_flags [] o_o (str "ids") [] [str "ids"]); [constructor|left; auto|]. apply wr_end. cbn. discriminate. }
  eexists. split; [vm_compute; reflexivity|]. vm_compute. reflexivity.
Qed.

(* a list which cannot be read costs the file of -o its contents *)
Lemma lost_answer : exists qsort bufsiz prefix id_size hdr_id st fs old, old <> [] /\ fs (str "out") = Some old /\ fs (str "ids") = None /\
  written filt_vals filt_flags [(o_o, Some (str "out"))] [str "ids"] [str "-o"; str "out"; str "ids"] /\
  exists fs', filter_cmd qsort bufsiz prefix id_size hdr_id st [] (fun _ => true) fs [str "-o"; str "out"; str "ids"] = (fs', Ok (1, [])) /\ fs' (str "out") = Some [].
Proof.
  exists isort, 1024%nat, pre, 32, (fun _ _ => Abort), ifs_empty, (fun f => if bytes_eqb f (str "out") then Some abc else None), abc.
  split; [discriminate|]. split; [reflexivity|]. split; [reflexivity|]. split.
  { apply (wr_next filt_vals filt_flags [] o_o (str "out") [] [str "ids"]); [constructor|left; auto|]. apply wr_end. cbn. discriminate. }
  eexists. split; [vm_compute; reflexivity|]. vm_compute. reflexivity.
Qed.

Lemma refused_line : forall os ops, written filt_vals filt_flags os ops [str "-rx"; str "ids"] -> In (o_h, None) os.
Proof. intros os ops W. apply filt_getopt in W. apply (f_equal fst) in W. cbn in W. destruct os as [|[c v] [|[c2 v2] os]]; cbn in W; discriminate W. Qed.

Lemma fworld_case : exists x ix, reach K toy x /\ (forall j p, In (j, p) (wo_procs x) -> exists a, p = Ret a) /\
  24 <= c_idsize K /\ no_hex_prefix (c_prefix K) (c_idsize K) /\ lookup ix None = Ok (f_idx (wo_fs x)) /\
  In (JStore hello, Ret (Some hello_id)) (wo_procs x) /\
  Forall (good_given 1024 (c_prefix K) (c_idsize K)) hello_given /\ Forall small_given hello_given /\
  written filt_vals filt_flags [(o_r, None)] [] [str "-r"] /\ once [] /\ Forall2 (reads (flat_map text hello_given) (fun _ => None)) (named []) (map (flat_map text) [hello_given]).
Proof.
  destruct world_case as (x & ix & H1 & H2 & H3 & H4 & H5 & _ & _ & H6 & H7 & H8). exists x, ix. repeat (split; [assumption|]).
  split; [apply (wr_flags filt_vals filt_flags [o_r] [] [] []); [discriminate|constructor; [right; left; auto|constructor]|apply wr_end; exact I]|].
  split; [intros a b c H; destruct a; discriminate H|]. constructor; [left; auto|constructor].
Qed.
