(* Proofs about the command lines of byid, dumpindex, housekeeping and info, and about
   _testbytes. *)
From Coq Require Import String Sorting.Sorted.
From Coq Require Import ZifyBool ZifyNat ZifyN.
From Verif Require Import Base BaseLemmas ListLemmas IndexModel IndexSpec IndexSysModel IndexSysSpec IndexMain IndexProofs HeaderModel ProgModel StoreModel StoreSpec StoreSysModel
  StoreToy StoreRuns StoreCalls IdsModel IdsSpec IdsMain IdsRuns CmdModel CmdSpec CmdMain GetcModel GetcSpec GetcMain MkModel MkSpec MkMain MkRuns OthModel OthSpec.
Open Scope string_scope.
Open Scope list_scope.
Open Scope N_scope.
Ltac Zify.zify_post_hook ::= Z.div_mod_to_equations.

Lemma byid_getopt os ops args : written [] [o_h; o_e] os ops args <-> getopt "he" args = (map ev os, ops).
Proof.
  assert (TV : forall c, takes (str "he") c = Some true <-> In c []) by takes_tac ([104;101]).
  assert (TF : forall c, takes (str "he") c = Some false <-> In c [o_h; o_e]) by takes_tac ([104;101]).
  split; intros H.
  - eapply loop_written; eauto; try (cbn; unfold o_h, o_e; lia).
  - eapply loop_inv; eauto; try (cbn; unfold o_h, o_e; lia).
Qed.
Lemma dump_getopt os ops args : written [o_t] [o_h] os ops args <-> getopt "ht:" args = (map ev os, ops).
Proof.
  assert (TV : forall c, takes (str "ht:") c = Some true <-> In c [o_t]) by takes_tac ([104;116;58]).
  assert (TF : forall c, takes (str "ht:") c = Some false <-> In c [o_h]) by takes_tac ([104;116;58]).
  split; intros H.
  - eapply loop_written; eauto; try (cbn; unfold o_h, o_t; lia).
  - eapply loop_inv; eauto; try (cbn; unfold o_h, o_t; lia).
Qed.
Lemma test_getopt os ops args : written [o_n] [o_h] os ops args <-> getopt "hn:" args = (map ev os, ops).
Proof.
  assert (TV : forall c, takes (str "hn:") c = Some true <-> In c [o_n]) by takes_tac ([104;110;58]).
  assert (TF : forall c, takes (str "hn:") c = Some false <-> In c [o_h]) by takes_tac ([104;110;58]).
  split; intros H.
  - eapply loop_written; eauto; try (cbn; unfold o_h, o_n; lia).
  - eapply loop_inv; eauto; try (cbn; unfold o_h, o_n; lia).
Qed.

(* byid *)
Lemma byid_opts_spec : forall os ok, Forall (fun o => match snd o with Some _ => In (fst o) [] | None => In (fst o) [o_h; o_e] end) os ->
  ~ In (o_h, None) os -> byid_opts ok (map ev os) = Some (ok || mentions o_e os).
Proof.
  induction os as [|[c v] os IH]; intros ok WF NH; [cbn; rewrite orb_false_r; auto|]. inversion_clear WF as [|? ? W WF']. cbn [fst snd] in W.
  destruct v as [v|]; [destruct W|]. destruct W as [<-|[<-|[]]]; [exfalso; apply NH; left; auto|].
  cbn [map]. unfold ev at 1. cbn [fst snd]. unfold o_e at 1. cbn [byid_opts]. rewrite IH by (auto; cbn in NH; tauto). unfold mentions. cbn [existsb fst].
  change (o_e =? o_e) with true. rewrite orb_true_r. auto.
Qed.
Lemma byid_opts_ev : forall l ok x, byid_opts ok l = Some x -> exists os, l = map ev os /\ ~ In (o_h, None) os.
Proof.
  induction l as [|e l IH]; intros ok x H; [exists []; auto|]. destruct e as [c v|]; [|discriminate].
  destruct (N.eq_dec c o_h) as [->|NE]; [destruct v; discriminate|].
  assert (exists os, l = map ev os /\ ~ In (o_h, None) os) as (os & -> & NH).
  { cbn [byid_opts] in H. repeat match type of H with context [match ?a with _ => _ end] => destruct a; try discriminate end; eauto. }
  exists ((c, v) :: os). split; [auto|]. intros [E|E]; [injection E as -> _; auto|auto].
Qed.
Lemma byid_as C os ops args s : written [] [o_h; o_e] os ops args -> ~ In (o_h, None) os ->
  run (byid_cmd C args) s = run (main_byid C (mentions o_e os) ops) s.
Proof.
  intros W NH. pose proof (written_wf _ _ _ _ _ W) as WF. apply byid_getopt in W. unfold byid_cmd. rewrite W, byid_opts_spec by auto. auto.
Qed.
Lemma byid_refused C args s : (forall os ops, written [] [o_h; o_e] os ops args -> In (o_h, None) os) -> run (byid_cmd C args) s = (s, inr DExit).
Proof.
  intros H. unfold byid_cmd. destruct (getopt "he" args) as [evs ops] eqn:G. destruct (byid_opts _ evs) as [o|] eqn:E; [|auto].
  destruct (byid_opts_ev _ _ _ E) as (os & -> & NH). apply byid_getopt in G. exfalso. apply NH. eapply H; eauto.
Qed.
Lemma byid_line C L : conf_ok C -> zlib_ok L -> forall x os ops args fs,
  reach C L x -> (forall j p, In (j, p) (wo_procs x) -> exists a, p = Ret a) ->
  written [] [o_h; o_e] os ops args -> ~ In (o_h, None) os ->
  Forall2 (frag (c_prefix C)) ops fs -> len ops * len (f_idx (wo_fs x)) <= 2 ^ 31 - 1 ->
  exists pss ls, Forall2 (its_records C L (wo_fs x)) fs pss /\ Forall2 id_line (map p_rec (List.concat pss)) ls /\
    run (byid_cmd C args) (wo_fs x) = (wo_fs x, inl (List.concat ls, if mentions o_e os then 0 else N.min 255 (len (List.concat pss)))).
Proof. intros CO ZO x os ops args fs R AD W NH F LN. rewrite (byid_as C os ops args _ W NH). apply byid_end; auto. Qed.

(* dumpindex *)
Lemma known_dump t : known_word t <-> exists u, dump_type t = Some u.
Proof. apply known_type. Qed.
Definition lastor (d : option bytes) (l : list bytes) : option bytes := match rev l with v :: _ => Some v | [] => d end.
Lemma lastor_cons d v l : lastor (Some v) l = lastor d (v :: l).
Proof. unfold lastor. cbn [rev]. destruct (rev l); auto. Qed.
Lemma dump_opts_spec : forall os t, Forall (fun o => match snd o with Some _ => In (fst o) [o_t] | None => In (fst o) [o_h] end) os ->
  ~ In (o_h, None) os -> (forall v, In v (given o_t os) -> known_word (Some v)) -> dump_opts t (map ev os) = Some (lastor t (given o_t os)).
Proof.
  induction os as [|[c v] os IH]; intros t WF NH KW; [reflexivity|]. inversion_clear WF as [|? ? W WF']. cbn [fst snd] in W.
  destruct v as [v|]; destruct W as [<-|[]]; [|exfalso; apply NH; left; auto].
  cbn [map]. unfold ev at 1. cbn [fst snd]. unfold o_t at 1. cbn [dump_opts].
  destruct (proj1 (known_dump (Some v)) (KW v (or_introl eq_refl))) as (u & ->).
  rewrite IH; auto; [|cbn in NH; tauto|intros w Hw; apply KW; right; auto]. change (given o_t ((o_t, Some v) :: os)) with (v :: given o_t os). f_equal. apply lastor_cons.
Qed.
Lemma dump_opts_ev : forall l t x, dump_opts t l = Some x -> exists os, l = map ev os /\ ~ In (o_h, None) os /\
  Forall (fun o => match snd o with Some _ => In (fst o) [o_t] | None => In (fst o) [o_h] end) os /\ (forall v, In v (given o_t os) -> known_word (Some v)).
Proof.
  induction l as [|e l IH]; intros t x H; [exists []; split; auto; split; auto; split; [constructor|intros v []]|]. destruct e as [c v|]; [|discriminate].
  destruct (N.eq_dec c 116) as [->|NE].
  - destruct v as [v|]; [|discriminate H]. cbn [dump_opts] in H. destruct (dump_type (Some v)) as [u|] eqn:DT; [|discriminate H].
    destruct (IH _ _ H) as (os & -> & NH & WF & KW). exists ((116, Some v) :: os). split; [auto|]. split; [intros [E|E]; [discriminate E|auto]|].
    split; [constructor; auto; left; auto|]. intros w Hw. change (given o_t ((116, Some v) :: os)) with (v :: given o_t os) in Hw. destruct Hw as [<-|Hw]; [|auto].
    apply known_dump. eauto.
  - exfalso. cbn [dump_opts] in H. repeat match type of H with context [match ?a with _ => _ end] => destruct a; try discriminate end; apply NE; reflexivity.
Qed.
Lemma dump_as st os ops args : written [o_t] [o_h] os ops args -> ~ In (o_h, None) os -> (forall v, In v (given o_t os) -> known_word (Some v)) ->
  dump_cmd st args = main_dumpindex st (last_of o_t os) ops.
Proof.
  intros W NH KW. pose proof (written_wf _ _ _ _ _ W) as WF. apply dump_getopt in W. unfold dump_cmd. rewrite W, dump_opts_spec by auto. auto.
Qed.
Lemma dump_line_hist id_size sort_size evs os ops args :
  ok_conf id_size sort_size -> Forall ok_ev evs -> len (ideal_evs evs) < 2 ^ 38 ->
  written [o_t] [o_h] os ops args -> ~ In (o_h, None) os -> (forall v, In v (given o_t os) -> known_word (Some v)) -> Forall hexstr ops ->
  exists y, sys_run id_size sort_size (mkSys ifs_empty []) evs = Ok y /\
    ((forall k, In k ops -> start_clear (y_fs y) k /\ bucket_used (y_fs y) k) ->
     exists ess ls, dump_cmd (y_fs y) args = Ok (Some (List.concat ls)) /\ Forall2 shows (List.concat ess) ls /\
       Forall2 (fun q es => forall e, In e es <-> In e (ideal_evs evs) /\ IndexSpec.asked q e /\ word_flag (last_of o_t os) e) (IdsSpec.asks ops) ess).
Proof.
  intros OC F N W NH KW HX. assert (KL : known_word (last_of o_t os)).
  { unfold last_of. destruct (rev (given o_t os)) as [|v l] eqn:E; [exact Logic.I|]. apply KW. rewrite in_rev, E. left; auto. }
  destruct (dump_hist id_size sort_size evs (last_of o_t os) ops OC F N KL HX) as (y & R & D). exists y. split; auto. intros CL. rewrite (dump_as _ os ops args W NH KW). auto.
Qed.
Lemma dump_refused st args : (forall os ops, written [o_t] [o_h] os ops args -> In (o_h, None) os \/ exists v, In v (given o_t os) /\ ~ known_word (Some v)) -> dump_cmd st args = Ok None.
Proof.
  intros H. unfold dump_cmd. destruct (getopt "ht:" args) as [evs ops] eqn:G. destruct (dump_opts None evs) as [o|] eqn:E; [|auto].
  destruct (dump_opts_ev _ _ _ E) as (os & -> & NH & _ & KW). apply dump_getopt in G. exfalso. destruct (H _ _ G) as [X|(v & X & Y)]; auto.
Qed.

(* housekeeping and info *)
Lemma hk_getopt os ops args : written [] [o_h] os ops args <-> getopt "h" args = (map ev os, ops).
Proof.
  assert (TV : forall c, takes (str "h") c = Some true <-> In c []) by takes_tac ([104]).
  assert (TF : forall c, takes (str "h") c = Some false <-> In c [o_h]) by takes_tac ([104]).
  split; intros H.
  - eapply loop_written; eauto; try (cbn; unfold o_h; lia).
  - eapply loop_inv; eauto; try (cbn; unfold o_h; lia).
Qed.
Lemma hk_line id_size sort_size ops args : ok_conf id_size sort_size -> Forall ok_op ops -> len (ideal_ops ops) < 2 ^ 38 -> written [] [o_h] [] [] args ->
  exists st st' l', run_ops id_size sort_size ifs_empty ops = Ok st /\ housekeeping_cmd sort_size st args = Ok (Some st') /\ IndexModel.lookup st' None = Ok l' /\
    (forall e, In e l' <-> In e (ideal_ops ops)) /\ StronglySorted key_le l' /\ IndexModel.f_app st' = None /\ IndexModel.f_hk st' = None /\ IndexModel.f_hold st' = false.
Proof.
  intros OC F N W. destruct (resort_hist id_size sort_size ops OC F N) as (st & st' & l' & H1 & H2 & H3). exists st, st', l'. split; auto. split; auto.
  apply hk_getopt in W. unfold housekeeping_cmd. rewrite W. cbn [map]. rewrite H2. auto.
Qed.
Lemma hk_refused sort_size st args : (forall ops, ~ written [] [o_h] [] ops args) -> housekeeping_cmd sort_size st args = Ok None.
Proof.
  intros H. unfold housekeeping_cmd. destruct (getopt "h" args) as [[|e evs] ops] eqn:G; [|auto]. exfalso. apply (H ops), hk_getopt. auto.
Qed.
Lemma hk_aborts sort_size st a r args : written [] [o_h] [] (a :: r) args -> housekeeping_cmd sort_size st args = Abort.
Proof. intros W. apply hk_getopt in W. unfold housekeeping_cmd. rewrite W. auto. Qed.
Lemma info_line json id_size args : written [] [o_h] [] [] args -> info_cmd json id_size args =
  Some (if json then str "[ ""AardWARC"", ""info"", ""1"", {" ++ [10] ++ str "    ""id_size"": " ++ dec id_size ++ [10] ++ str "} ]" ++ [10] else str "id_size: " ++ dec id_size ++ [10]).
Proof. intros W. apply hk_getopt in W. unfold info_cmd. rewrite W. auto. Qed.
Lemma info_refused json id_size args : ~ written [] [o_h] [] [] args -> info_cmd json id_size args = None.
Proof.
  intros H. unfold info_cmd. destruct (getopt "h" args) as [[|e evs] [|a ops]] eqn:G; auto. exfalso. apply H, hk_getopt. auto.
Qed.

(* _testbytes *)
Section Test.
Variable sha : bytes -> bytes.
Hypothesis SHA : forall d, List.length (sha d) = 32%nat.

Lemma iter_r k d : Nat.iter (S k) sha d = Nat.iter k sha (sha d).
Proof. induction k as [|k IH]; [reflexivity|]. change (sha (Nat.iter (S k) sha d) = sha (Nat.iter k sha (sha d))). rewrite IH. reflexivity. Qed.
Lemma loop_bytes : forall fuel dig n, (N.to_nat n <= 32 * fuel)%nat -> exists out, test_loop sha fuel dig n = Ok out /\ len out = n /\
  forall i, i < n -> nth (N.to_nat i) out 0 = nth (N.to_nat (i mod 32)) (Nat.iter (S (N.to_nat (i / 32))) sha dig) 0.
Proof.
  induction fuel as [|f IH]; intros dig n LE; cbn [test_loop].
  - replace (n =? 0) with true by lia. exists []. split; auto. split; [cbn; lia|]. intros i Hi. lia.
  - destruct (n =? 0) eqn:E0; [exists []; split; auto; split; [cbn; lia|intros i Hi; lia]|].
    destruct (IH (sha dig) (n - N.min 32 n) ltac:(lia)) as (r & ER & LR & NR). rewrite ER. cbn [bind].
    assert (LF : List.length (firstn (N.to_nat (N.min 32 n)) (sha dig)) = N.to_nat (N.min 32 n)) by (rewrite firstn_length, SHA; lia).
    eexists. split; [reflexivity|]. split; [rewrite len_app, LR; unfold len; rewrite LF; lia|]. intros i Hi.
    destruct (N.lt_ge_cases i 32) as [L32|G32].
    + rewrite app_nth1 by (rewrite LF; lia). replace (i mod 32) with i by lia. replace (i / 32) with 0 by lia. cbn [N.to_nat Nat.iter nat_rect].
      rewrite <- (firstn_skipn (N.to_nat (N.min 32 n)) (sha dig)) at 2. rewrite app_nth1 by (rewrite LF; lia). reflexivity.
    + rewrite app_nth2 by (rewrite LF; lia). rewrite LF. replace (N.to_nat i - N.to_nat (N.min 32 n))%nat with (N.to_nat (i - 32)) by lia. rewrite NR by lia.
      replace ((i - 32) mod 32) with (i mod 32) by lia. replace (N.to_nat (i / 32)) with (S (N.to_nat ((i - 32) / 32))) by lia.
      f_equal. rewrite (iter_r (S (N.to_nat ((i - 32) / 32)))). reflexivity.
Qed.

Lemma test_opts_spec : forall os d, Forall (fun o => match snd o with Some _ => In (fst o) [o_n] | None => In (fst o) [o_h] end) os ->
  ~ In (o_h, None) os -> test_opts d (map ev os) = Some (match rev (given o_n os) with v :: _ => strtoul v | [] => d end).
Proof.
  induction os as [|[c v] os IH]; intros d WF NH; [reflexivity|]. inversion_clear WF as [|? ? W WF']. cbn [fst snd] in W.
  destruct v as [v|]; destruct W as [<-|[]]; [|exfalso; apply NH; left; auto].
  cbn [map]. unfold ev at 1. cbn [fst snd]. unfold o_n at 1. cbn [test_opts].
  rewrite IH; auto; [|cbn in NH; tauto]. change (given o_n ((o_n, Some v) :: os)) with (v :: given o_n os). cbn [rev]. destruct (rev (given o_n os)); auto.
Qed.
Lemma test_opts_ev : forall l d x, test_opts d l = Some x -> exists os, l = map ev os /\ ~ In (o_h, None) os.
Proof.
  induction l as [|e l IH]; intros d x H; [exists []; auto|]. destruct e as [c v|]; [|discriminate].
  destruct (N.eq_dec c o_h) as [->|NE]; [destruct v; discriminate|].
  assert (exists os, l = map ev os /\ ~ In (o_h, None) os) as (os & -> & NH).
  { cbn [test_opts] in H. repeat match type of H with context [match ?a with _ => _ end] => destruct a; try discriminate end; eauto. }
  exists ((c, v) :: os). split; [auto|]. intros [E|E]; [injection E as -> _; auto|auto].
Qed.
Lemma test_line os args t n : written [o_n] [o_h] os [] args -> ~ In (o_h, None) os -> last_of o_n os = Some t -> reads_as t n -> n < 2 ^ 64 ->
  exists fuel0, forall fuel, (fuel0 <= fuel)%nat -> exists out, testbytes_cmd sha fuel args = Ok (Some out) /\ len out = n /\
    forall i, i < n -> nth (N.to_nat i) out 0 = test_byte sha i.
Proof.
  intros W NH LO RA LT. pose proof (written_wf _ _ _ _ _ W) as WF. apply test_getopt in W. exists (N.to_nat n). intros fuel LE.
  destruct (loop_bytes fuel (repeat 0 32) n ltac:(lia)) as (out & E & LN & NB). exists out. split; [|split; auto].
  unfold testbytes_cmd. rewrite W, test_opts_spec by auto. unfold last_of in LO. destruct (rev (given o_n os)) as [|v l]; [discriminate LO|]. injection LO as ->.
  rewrite (strtoul_spec t n RA LT), E. auto.
Qed.
Lemma test_empty os args fuel : written [o_n] [o_h] os [] args -> ~ In (o_h, None) os -> last_of o_n os = None -> testbytes_cmd sha fuel args = Ok (Some []).
Proof.
  intros W NH LO. pose proof (written_wf _ _ _ _ _ W) as WF. apply test_getopt in W. unfold testbytes_cmd. rewrite W, test_opts_spec by auto.
  unfold last_of in LO. destruct (rev (given o_n os)); [|discriminate LO]. destruct fuel; auto.
Qed.
Lemma test_refused fuel args : (forall os ops, written [o_n] [o_h] os ops args -> In (o_h, None) os) -> testbytes_cmd sha fuel args = Ok None.
Proof.
  intros H. unfold testbytes_cmd. destruct (getopt "hn:" args) as [evs ops] eqn:G. destruct (test_opts 0 evs) as [o|] eqn:E; [|auto].
  destruct (test_opts_ev _ _ _ E) as (os & -> & NH). apply test_getopt in G. exfalso. apply NH. eapply H; eauto.
Qed.
Lemma test_aborts fuel os a r args : written [o_n] [o_h] os (a :: r) args -> ~ In (o_h, None) os -> testbytes_cmd sha fuel args = Abort.
Proof. intros W NH. pose proof (written_wf _ _ _ _ _ W) as WF. apply test_getopt in W. unfold testbytes_cmd. rewrite W, test_opts_spec by auto. auto. Qed.
End Test.

(* cases *)
Definition flip (d : bytes) : bytes := firstn 32 (map (fun b => b + 1) d ++ repeat 7 32).
Lemma flip_len d : List.length (flip d) = 32%nat.
Proof. unfold flip. rewrite firstn_length, app_length, map_length, repeat_length. lia. Qed.
Lemma byid_line_case : written [] [o_h; o_e] [(o_e, None)] [hello_id] [str "-e"; hello_id] /\ ~ In (o_h, @None bytes) [(o_e, None)] /\ mentions o_e [(o_e, @None bytes)] = true.
Proof. split; [apply byid_getopt; reflexivity|]. split; [intros [E|[]]; discriminate E|reflexivity]. Qed.
Lemma byid_refused_case : forall os ops, written [] [o_h; o_e] os ops [str "-eh"; hello_id] -> In (o_h, None) os.
Proof. intros os ops W. apply byid_getopt in W. injection W as E _. destruct os as [|[c v] [|[c' v'] os]]; try discriminate E. injection E as _ _ <- <- _. right. left. auto. Qed.
Lemma dump_line_case : written [o_t] [o_h] [(o_t, Some (str "metadata")); (o_t, Some (str "resource"))] [str "f"] [str "-tmetadata"; str "-t"; str "resource"; str "f"] /\
  ~ In (o_h, None) [(o_t, Some (str "metadata")); (o_t, Some (str "resource"))] /\ last_of o_t [(o_t, Some (str "metadata")); (o_t, Some (str "resource"))] = Some (str "resource") /\
  (forall v, In v (given o_t [(o_t, Some (str "metadata")); (o_t, Some (str "resource"))]) -> known_word (Some v)) /\ Forall hexstr [str "f"].
Proof.
  split; [apply dump_getopt; reflexivity|]. split; [intros [E|[E|[]]]; discriminate E|]. split; [reflexivity|]. split.
  - intros v [<-|[<-|[]]]; apply known_dump; eexists; reflexivity.
  - constructor; [|constructor]. apply forallb_hexstr. reflexivity.
Qed.
Lemma dump_refused_case : forall os ops, written [o_t] [o_h] os ops [str "-t"; str "meta"; str "-t"; str "metadata"] ->
  In (o_h, None) os \/ exists v, In v (given o_t os) /\ ~ known_word (Some v).
Proof.
  intros os ops W. apply dump_getopt in W. injection W as E _. destruct os as [|[c v] [|[c' v'] [|o os]]]; try discriminate E. injection E as <- <- <- <-. right. exists (str "meta").
  split; [left; reflexivity|]. intros K. apply known_dump in K. destruct K as (u & K). discriminate K.
Qed.
Lemma hk_line_case : written [] [o_h] [] [] [str "--"] /\ (forall ops, ~ written [] [o_h] [] ops [str "-x"]).
Proof. split; [apply hk_getopt; reflexivity|]. intros ops W. apply hk_getopt in W. discriminate W. Qed.
Lemma hk_operand sort_size : exists args, written [] [o_h] [] [str "3"] args /\ forall st, housekeeping_cmd sort_size st args = Abort.
Proof. exists [str "3"]. assert (W : written [] [o_h] [] [str "3"] [str "3"]) by (apply hk_getopt; reflexivity). split; [exact W|]. intros st. eapply hk_aborts; eauto. Qed.
Lemma info_refused_case : ~ written [] [o_h] [] [] [str "3"].
Proof. intros W. apply hk_getopt in W. discriminate W. Qed.
Lemma test_line_case : written [o_n] [o_h] [(o_n, Some (str "0x1F"))] [] [str "-n0x1F"] /\ ~ In (o_h, None) [(o_n, Some (str "0x1F"))] /\
  last_of o_n [(o_n, Some (str "0x1F"))] = Some (str "0x1F") /\ reads_as (str "0x1F") 31 /\ (forall d, List.length (flip d) = 32%nat).
Proof. split; [apply test_getopt; reflexivity|]. split; [intros [E|[]]; discriminate E|]. split; [reflexivity|]. split; [apply number_case|exact flip_len]. Qed.
Lemma test_run_case : testbytes_cmd flip 9 [str "-n"; str "034"] = Ok (Some (firstn 28 (repeat 1 32))) /\ testbytes_cmd flip 9 [str "-n"; str "34"] = Ok (Some (repeat 1 32 ++ [2; 2])).
Proof. split; vm_compute; reflexivity. Qed.
Lemma test_refused_case : forall os ops, written [o_n] [o_h] os ops [str "-n"] -> In (o_h, None) os.
Proof. intros os ops W. apply test_getopt in W. injection W as E _. destruct os; discriminate E. Qed.
Lemma test_operand : exists args, written [o_n] [o_h] [] [str "34"] args /\ forall sha fuel, testbytes_cmd sha fuel args = Abort.
Proof.
  exists [str "34"]. assert (W : written [o_n] [o_h] [] [str "34"] [str "34"]) by (apply test_getopt; reflexivity). split; [exact W|]. intros sha fuel.
  eapply (test_aborts sha fuel []); [exact W|intros []].
Qed.
