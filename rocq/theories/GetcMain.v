(* Proofs about the command line of get. *)
From Coq Require Import String.
From Coq Require Import ZifyBool ZifyNat ZifyN.
From Verif Require Import Base BaseLemmas ListLemmas IndexModel IndexSpec HeaderModel HeaderSpec InflateSpec GzipModel GzipSpec ProgModel StoreModel StoreSpec StoreSysModel
  StoreWp StoreSys StoreWorld StoreCalls StoreAgain StoreOrigin StoreEnd LiveSpec LiveMain LiveJob LiveEnd LiveRuns CgiModel CgiSpec CgiMain
  CmdModel CmdSpec CmdMain GetcModel GetcSpec.
Open Scope string_scope.
Open Scope list_scope.
Open Scope N_scope.

Lemma get_getopt os ops args : written get_vals get_flags os ops args <-> getopt "ho:nqz" args = (map ev os, ops).
Proof.
  assert (TV : forall c, takes (str "ho:nqz") c = Some true <-> In c get_vals) by takes_tac ([104;111;58;110;113;122]).
  assert (TF : forall c, takes (str "ho:nqz") c = Some false <-> In c get_flags) by takes_tac ([104;111;58;110;113;122]).
  split; intros H.
  - eapply loop_written; eauto; try (cbn; unfold o_h, o_o, o_n, o_q, o_z; lia).
  - eapply loop_inv; eauto; try (cbn; unfold o_h, o_o, o_n, o_q, o_z; lia).
Qed.

Definition with_o (d : option bytes) (l : list bytes) : option bytes := match rev l with f :: _ => Some f | [] => d end.
Lemma with_o_cons d v l : with_o (Some v) l = with_o d (v :: l).
Proof. unfold with_o. cbn [rev]. destruct (rev l); auto. Qed.

Lemma get_opts_spec : forall os o,
  Forall (fun o => match snd o with Some _ => In (fst o) get_vals | None => In (fst o) get_flags end) os ->
  ~ In (o_h, None) os ->
  get_opts o (map ev os) = Some (mkGO (with_o (go_o o) (given o_o os)) (xorb (go_q o) (odd_times o_q os))
    (xorb (go_z o) (odd_times o_z os)) (xorb (go_n o) (odd_times o_n os))).
Proof.
  induction os as [|[c v] os IH]; intros o WF NH.
  - cbn. rewrite !xorb_false_r. destruct o. auto.
  - inversion_clear WF as [|? ? W WF']. cbn [fst snd] in W. assert (NH' : ~ In (o_h, None) os) by (cbn in NH; tauto).
    cbn [map]. unfold ev at 1. cbn [fst snd]. destruct v as [v|].
    + destruct W as [<-|[]]. unfold o_o at 1. cbn [get_opts]. rewrite IH by auto. cbn [go_o go_q go_z go_n odd_times fst].
      change (o_o =? o_q) with false. change (o_o =? o_z) with false. change (o_o =? o_n) with false. cbv iota.
      change (given o_o ((o_o, Some v) :: os)) with (v :: given o_o os). rewrite <- with_o_cons. auto.
    + change (given o_o ((c, None) :: os)) with (given o_o os).
      destruct W as [<-|[<-|[<-|[<-|[]]]]]; [exfalso; apply NH; left; auto| | |].
      * unfold o_n at 1. cbn [get_opts]. rewrite IH by auto. cbn [go_o go_q go_z go_n odd_times fst].
        change (o_n =? o_q) with false. change (o_n =? o_z) with false. change (o_n =? o_n) with true. cbv iota.
        f_equal. f_equal. destruct (go_n o), (odd_times o_n os); auto.
      * unfold o_q at 1. cbn [get_opts]. rewrite IH by auto. cbn [go_o go_q go_z go_n odd_times fst].
        change (o_q =? o_n) with false. change (o_q =? o_z) with false. change (o_q =? o_q) with true. cbv iota.
        f_equal. f_equal. destruct (go_q o), (odd_times o_q os); auto.
      * unfold o_z at 1. cbn [get_opts]. rewrite IH by auto. cbn [go_o go_q go_z go_n odd_times fst].
        change (o_z =? o_q) with false. change (o_z =? o_n) with false. change (o_z =? o_z) with true. cbv iota.
        f_equal. f_equal. destruct (go_z o), (odd_times o_z os); auto.
Qed.
Lemma get_opts_ev : forall l o x, get_opts o l = Some x -> exists os, l = map ev os /\ ~ In (o_h, None) os.
Proof.
  induction l as [|e l IH]; intros o x H; [exists []; auto|]. destruct e as [c v|]; [|discriminate].
  destruct (N.eq_dec c o_h) as [->|NE]; [destruct v; discriminate|].
  assert (exists os, l = map ev os /\ ~ In (o_h, None) os) as (os & -> & NH).
  { cbn [get_opts] in H. repeat match type of H with context [match ?a with _ => _ end] => destruct a; try discriminate end; eauto. }
  exists ((c, v) :: os). split; [auto|]. intros [E|E]; [injection E as -> _; auto|auto].
Qed.

Section Getc.
Variable C : conf.
Variable L : zlib.
Variable openable : bytes -> bool.
Notation prefix := (c_prefix C).

Lemma get_refused args s : (forall os arg, written get_vals get_flags os [arg] args -> In (o_h, None) os) ->
  run (get_cmd C L openable args) s = (s, inr DExit).
Proof.
  intros H. unfold get_cmd. destruct (getopt "ho:nqz" args) as [evs ops] eqn:G. destruct (get_opts _ evs) as [o|] eqn:E; [|auto].
  destruct (get_opts_ev _ _ _ E) as (os & -> & NH). apply get_getopt in G. destruct ops as [|arg [|]]; auto. exfalso. apply NH. eapply H; eauto.
Qed.

(* what is printed, from what is found *)
Lemma get_found os arg args s h d : written get_vals get_flags os [arg] args -> ~ In (o_h, None) os ->
  (forall f, out_file os = Some f -> openable f = true) ->
  run (main_get_out C L (odd_times o_z os) (odd_times o_q os) (odd_times o_n os) arg) s =
    (s, inl (Some (if odd_times o_q os then [] else h, if odd_times o_n os then [] else d))) ->
  exists o, run (get_cmd C L openable args) s = (s, inl (0, o)) /\ puts os h d o.
Proof.
  intros W NH OP E. pose proof (written_wf _ _ _ _ _ W) as WF. apply get_getopt in W. unfold get_cmd. rewrite W, get_opts_spec by auto.
  cbn [go_o go_q go_z go_n]. rewrite !xorb_false_l. rewrite run_bind, E. unfold puts, out_file in *. unfold with_o.
  destruct (rev (given o_o os)) as [|f l].
  - eexists. split; [reflexivity|]. cbn [g_file g_stdout g_stderr]. auto.
  - rewrite (OP f) by auto. eexists. split; [reflexivity|]. cbn [g_file g_stdout g_stderr]. auto.
Qed.

Lemma get_none os arg args s : written get_vals get_flags os [arg] args -> ~ In (o_h, None) os ->
  run (GetJob_New C arg) s = (s, inl None) ->
  run (get_cmd C L openable args) s = (s, inl (1, mkOut [] [] (match out_file os with Some f => if openable f then Some (f, []) else None | None => None end))).
Proof.
  intros W NH E. pose proof (written_wf _ _ _ _ _ W) as WF. apply get_getopt in W. unfold get_cmd. rewrite W, get_opts_spec by auto.
  cbn [go_o go_q go_z go_n]. rewrite !xorb_false_l. unfold main_get_out. rewrite run_bind, run_bind, E. cbn [run]. unfold out_file, with_o.
  destruct (rev (given o_o os)) as [|f l]; auto.
Qed.

Lemma get_unopened os arg args s h d f : written get_vals get_flags os [arg] args -> ~ In (o_h, None) os ->
  out_file os = Some f -> openable f = false -> odd_times o_n os = false ->
  run (main_get_out C L (odd_times o_z os) (odd_times o_q os) false arg) s = (s, inl (Some (h, d))) ->
  run (get_cmd C L openable args) s = (s, inr DUB).
Proof.
  intros W NH OF OP ON E. pose proof (written_wf _ _ _ _ _ W) as WF. apply get_getopt in W. unfold get_cmd. rewrite W, get_opts_spec by auto.
  cbn [go_o go_q go_z go_n]. rewrite !xorb_false_l. rewrite ON, run_bind, E. unfold out_file, with_o in *.
  destruct (rev (given o_o os)) as [|f' l]; [discriminate|]. injection OF as ->. rewrite OP. auto.
Qed.

Lemma out_zip quiet ho arg s h out : run (main_get C L true arg) s = (s, inl (Some out)) ->
  run (main_get_out C L false quiet true arg) s = (s, inl (Some (h, []))) ->
  run (main_get_out C L true quiet ho arg) s = (s, inl (Some (h, if ho then [] else out))).
Proof.
  unfold main_get, main_get_out. rewrite !run_bind. destruct (run (GetJob_New C arg) s) as [s1 [[gs|]|d]] eqn:E; [|cbn [run]; congruence|congruence].
  rewrite !run_bind. intros H1 H2.
  assert (s1 = s) as ->.
  { transitivity (fst (run (GetJob_New C arg) s)); [rewrite E; auto|].
    apply (ac_run _ _ (fun t => t = s) (getjob_ro C arg)); [|auto]. intros c t H ->. destruct c; cbn in H; try contradiction; auto. }
  destruct (run (if quiet then Ret [] else lift (GetJob_Headers (c_prefix C) gs)) s) as [s2 [h'|]] eqn:E2; [|congruence].
  cbn [run bindp] in H2. injection H2 as -> <-. rewrite run_bind.
  destruct ho; [reflexivity|]. destruct (run (get_body C L true gs) s) as [s3 [o'|]] eqn:E3; [|congruence]. cbn [run] in H1. injection H1 as -> <-. cbn [bindp]. rewrite ?run_bind. unfold bytes in *. rewrite E3. auto.
Qed.

Section Ended.
Hypothesis CO : conf_ok C.
Hypothesis ZO : zlib_ok L.
Variables (x : world) (r : request) (b : bytes).
Hypothesis RX : reach C L x.
Hypothesis AD : forall j p, In (j, p) (wo_procs x) -> exists a, p = Ret a.
Hypothesis AP : apart C (wo_fs x).
Hypothesis HI : In (JStore r, Ret (Some b)) (wo_procs x).
Hypothesis SD : forall r' b', In (JStore r', Ret (Some b')) (wo_procs x) -> lower b' = lower b -> List.concat (r_data r') = List.concat (r_data r).
Hypothesis FU : (List.length (f_idx (wo_fs x)) <= c_fuel C)%nat.
Hypothesis KB : N.of_nat (List.length (f_idx (wo_fs x))) < 2 ^ 31 - 1.
Variables (arg nid : bytes).
Hypothesis GI : good_id prefix (c_idsize C) arg nid.
Hypothesis LB : lower (prefix ++ nid) = lower b.
Variables (os : list (N * option bytes)) (args : list bytes).
Hypothesis W : written get_vals get_flags os [arg] args.
Hypothesis NH : ~ In (o_h, None) os.
Hypothesis OP : forall f, out_file os = Some f -> openable f = true.

Theorem get_delivers y : steps C L x y -> new_apart C (wo_fs x) (wo_fs y) -> odd_times o_z os = false ->
  exists r' b' hd o, In (JStore r', Ret (Some b')) (wo_procs x) /\ lower b' = lower b /\ tells C (z_sha L) r' b' hd /\
    run (get_cmd C L openable args) (wo_fs y) = (wo_fs y, inl (0, o)) /\ puts os (warc_text prefix hd) (List.concat (r_data r)) o.
Proof.
  intros ST NA OZ. destruct (end_headers C L CO ZO x y r b arg nid RX AD AP HI FU KB GI LB ST NA (odd_times o_q os) (odd_times o_n os))
    as (r' & b' & hd & HI' & LE & E & T).
  rewrite (SD r' b' HI' LE) in E. rewrite <- OZ in E. destruct (get_found os arg args (wo_fs y) _ _ W NH OP E) as (o & R & P).
  exists r', b', hd, o. auto.
Qed.

Theorem get_gzip : c_max C < 2 ^ 32 -> comb_ok (z_comb L) -> len (List.concat (r_data r)) < 2 ^ 32 -> odd_times o_z os = true ->
  exists r' b' hd o out, In (JStore r', Ret (Some b')) (wo_procs x) /\ lower b' = lower b /\ tells C (z_sha L) r' b' hd /\
    run (get_cmd C L openable args) (wo_fs x) = (wo_fs x, inl (0, o)) /\ puts os (warc_text prefix hd) out o /\
    gunzip out = Some (List.concat (r_data r), []).
Proof.
  intros MX CB LD OZ. destruct (end_getz C L CO ZO x r b RX AD AP HI SD FU KB arg nid GI LB MX CB LD) as (out & E1 & G).
  destruct (end_headers C L CO ZO x x r b arg nid RX AD AP HI FU KB GI LB (steps_refl C L x) (fun e H => or_introl H) (odd_times o_q os) true)
    as (r' & b' & hd & HI' & LE & E & T).
  pose proof (out_zip (odd_times o_q os) (odd_times o_n os) arg (wo_fs x) _ _ E1 E) as R. rewrite <- OZ in R at 1.
  destruct (get_found os arg args (wo_fs x) _ _ W NH OP R) as (o & R' & P). exists r', b', hd, o, out. auto 10.
Qed.
End Ended.

Theorem store_then_get cfg input x r b s' arg nid sos ops sargs os args : conf_ok C -> zlib_ok L -> reach C L x ->
  (forall j p, In (j, p) (wo_procs x) -> exists a, p = Ret a) ->
  written store_vals store_flags sos ops sargs -> asks C cfg input sos ops r -> request_ok r ->
  run (store_cmd C L cfg input sargs) (wo_fs x) = (s', inl b) ->
  (forall r' b', In (JStore r', Ret (Some b')) (wo_procs x) -> lower b' = lower b -> List.concat (r_data r') = List.concat (r_data r)) ->
  apart C s' -> (List.length (f_idx s') <= c_fuel C)%nat -> N.of_nat (List.length (f_idx s')) < 2 ^ 31 - 1 ->
  good_id prefix (c_idsize C) arg nid -> lower (prefix ++ nid) = lower b ->
  written get_vals get_flags os [arg] args -> ~ In (o_h, None) os -> odd_times o_z os = false ->
  (forall f, out_file os = Some f -> openable f = true) ->
  exists r' b' hd o, (r' = r /\ b' = b \/ In (JStore r', Ret (Some b')) (wo_procs x)) /\ lower b' = lower b /\ tells C (z_sha L) r' b' hd /\
    run (get_cmd C L openable args) s' = (s', inl (0, o)) /\ puts os (warc_text prefix hd) (List.concat (r_data r)) o.
Proof.
  intros CO ZO RX AD WS AS RO E SD AP FU KB GI LB W NH OZ OP. destruct x as [s ps]. cbn [wo_fs wo_procs] in *.
  rewrite (accepted_run C L cfg input sos ops sargs r WS AS) in E.
  assert (R' : reach C L (mkWorld s' (ps ++ [(JStore r, Ret (Some b))]))).
  { apply (run_reach C L s ps (JStore r) s' (Some b)); auto. cbn [job_prog]. rewrite run_bind, E. auto. }
  edestruct (get_delivers CO ZO _ r b R') with (y := mkWorld s' (ps ++ [(JStore r, Ret (Some b))])) as (r' & b' & hd & o & HI & LE & T & R & P);
    cbn [wo_fs wo_procs]; eauto.
  - intros j p H. apply in_app_iff in H. destruct H as [H|[H|[]]]; [eauto|]. injection H as _ <-. eauto.
  - apply in_app_iff. right. left. auto.
  - intros r' b' H LE. apply in_app_iff in H. destruct H as [H|[H|[]]]; [eauto|]. injection H as -> _. auto.
  - constructor.
  - intros e H. left. auto.
  - cbn [wo_fs wo_procs] in *. exists r', b', hd, o. split; [|auto]. apply in_app_iff in HI. destruct HI as [H|[H|[]]]; [auto|]. injection H as -> ->. auto.
Qed.

Theorem get_unknown x arg nid os args : conf_ok C -> zlib_ok L -> reach C L x ->
  (forall j p, In (j, p) (wo_procs x) -> exists a, p = Ret a) ->
  good_id prefix (c_idsize C) arg nid -> unknown C L (wo_fs x) nid -> (0 < c_fuel C)%nat ->
  written get_vals get_flags os [arg] args -> ~ In (o_h, None) os ->
  exists o, run (get_cmd C L openable args) (wo_fs x) = (wo_fs x, inl (1, o)) /\ g_stdout o = [] /\ g_stderr o = [] /\
    g_file o = match out_file os with Some f => if openable f then Some (f, []) else None | None => None end.
Proof.
  intros CO ZO RX AD GI UN FU W NH. pose proof (all_done C L CO ZO x RX AD) as Q. destruct (reach_inv C L CO ZO x RX) as (AO & DT).
  eexists. split; [apply (get_none os arg args _ W NH)|auto]. 
  destruct GI as (W1 & W2 & W3). pose proof (unknown_gives C L CO (wo_fs x) nid AO DT Q UN FU W1 W2) as G. unfold gives, GetJob_New in *.
  assert (V : IDX_Valid_Id (c_prefix C) (c_idsize C) nid = IdOk nid) by (apply valid_iff; [auto|split; auto]).
  assert (V' : IDX_Valid_Id (c_prefix C) (c_idsize C) arg = IdOk nid) by (apply valid_iff; [auto|split; auto]).
  rewrite V in G. rewrite V'. exact G.
Qed.

Theorem get_invalid s arg os args : conf_ok C -> (forall nid, ~ good_id prefix (c_idsize C) arg nid) ->
  written get_vals get_flags os [arg] args -> ~ In (o_h, None) os ->
  exists o, run (get_cmd C L openable args) s = (s, inl (1, o)) /\ g_stdout o = [] /\ g_stderr o = [].
Proof.
  intros CO NG W NH. eexists. split; [apply (get_none os arg args _ W NH)|auto].
  unfold GetJob_New. destruct (IDX_Valid_Id (c_prefix C) (c_idsize C) arg) eqn:V; auto. exfalso. apply valid_iff in V; [|auto]. exact (NG _ V).
Qed.
End Getc.
