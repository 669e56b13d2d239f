(* Command lines of get on small archives, for the examples. *)
From Coq Require Import String.
From Coq Require Import ZifyBool ZifyNat ZifyN.
From Verif Require Import Base BaseLemmas ListLemmas IndexModel IndexSpec HeaderModel HeaderSpec InflateSpec GzipModel GzipSpec ProgModel StoreModel StoreSpec StoreSysModel
  StoreWp StoreSys StoreWorld StoreCalls StoreAgain StoreOrigin StoreToy StoreToyOk StoreMain StoreWit StoreRuns StoreEnd LiveSpec LiveMain LiveJob LiveEnd LiveToy LiveRuns CgiModel CgiSpec CgiMain
  ConfigModel ConfigSpec CmdModel CmdSpec CmdMain CmdEnd GetcModel GetcSpec GetcMain.
Open Scope string_scope.
Open Scope list_scope.
Open Scope N_scope.

(* get -qo out ID *)
Definition out_line (id : bytes) : list bytes := [str "-qo"; str "out"; id].
Definition out_opts : list (N * option bytes) := [(o_q, None); (o_o, Some (str "out"))].
Lemma out_big : written get_vals get_flags out_opts [big_dig] (out_line big_dig).
Proof. apply get_getopt. vm_compute. reflexivity. Qed.
Lemma out_hello : written get_vals get_flags out_opts [hello_dig] (out_line hello_dig).
Proof. apply get_getopt. vm_compute. reflexivity. Qed.
Lemma no_help : ~ In (o_h, None) out_opts.
Proof. cbn. intuition discriminate. Qed.

Lemma big_there : exists x, reach K toy x /\ (forall j p, In (j, p) (wo_procs x) -> exists a, p = Ret a) /\ apart K (wo_fs x) /\
  In (JStore big, Ret (Some big_id)) (wo_procs x) /\
  (forall r' b', In (JStore r', Ret (Some b')) (wo_procs x) -> lower b' = lower big_id -> List.concat (r_data r') = List.concat (r_data big)) /\
  (List.length (f_idx (wo_fs x)) <= c_fuel K)%nat /\ len (List.concat (r_data big)) = 11500 /\
  good_id (c_prefix K) (c_idsize K) big_dig big_dig /\ lower (c_prefix K ++ big_dig) = lower big_id /\
  written get_vals get_flags out_opts [big_dig] (out_line big_dig) /\ ~ In (o_h, None) out_opts /\ odd_times o_z out_opts = false /\
  c_max K < 2 ^ 32 /\ comb_ok (z_comb toy) /\
  written get_vals get_flags [(o_z, None); (o_q, None)] [big_dig] [str "-zq"; str "--"; big_dig] /\ odd_times o_z [(o_z, None); (o_q, None)] = true.
Proof.
  destruct get_end_case as (x & R & AD & AP & HI & SD & FU & LE). exists x. repeat (split; [assumption|]).
  split; [apply valid_iff; [apply K_ok|vm_compute; reflexivity]|]. split; [reflexivity|]. split; [apply out_big|]. split; [apply no_help|]. split; [reflexivity|].
  split; [reflexivity|]. split; [intros c1 c2 n _ _; reflexivity|]. split; [apply get_getopt; vm_compute; reflexivity|reflexivity].
Qed.

(* store -m MIME notes; get -qo out ID *)
Definition in_line : list bytes := [str "-m"; r_mime hello; str "notes"].
Definition in_opts : list (N * option bytes) := [(o_m, Some (r_mime hello))].
Definition notes : option bytes -> option (list rd) := one_file [RData (str "Hello, world")].
Lemma round_case : exists s', reach KL toy3 (mkWorld fs0 []) /\
  written store_vals store_flags in_opts [str "notes"] in_line /\ asks KL any_cfg notes in_opts [str "notes"] hello /\ request_ok hello /\
  run (store_cmd KL toy3 any_cfg notes in_line) fs0 = (s', inl hello_id) /\
  apart KL s' /\ (List.length (f_idx s') <= c_fuel KL)%nat /\ N.of_nat (List.length (f_idx s')) < 2 ^ 31 - 1 /\
  good_id (c_prefix KL) (c_idsize KL) hello_dig hello_dig /\ lower (c_prefix KL ++ hello_dig) = lower hello_id /\
  written get_vals get_flags out_opts [hello_dig] (out_line hello_dig) /\ ~ In (o_h, None) out_opts /\ odd_times o_z out_opts = false.
Proof.
  destruct two_run as (s' & E & A). apply after_apart in A. destruct A as (A1 & A2 & _).
  assert (W : written store_vals store_flags in_opts [str "notes"] in_line) by (apply store_getopt; vm_compute; reflexivity).
  assert (AS : asks KL any_cfg notes in_opts [str "notes"] hello).
  { constructor.
    - cbn. intuition discriminate.
    - left. split; reflexivity.
    - reflexivity.
    - exists (mkSc (str "resource.mime-types") [mkE (str "*") None]), (mkE (str "*") None). split; [|split; [left; auto|left; reflexivity]].
      exists [], [mkSc (str "metadata.mime-types") [mkE (str "text/plain") None]]. split; [reflexivity|]. split; [reflexivity|]. intros y [].
    - split; reflexivity.
    - split; [left; auto|]. discriminate.
    - split; [discriminate|]. exists (Some (str "notes")), [RData (str "Hello, world")], []. split; [constructor; discriminate|]. split; [reflexivity|].
      split; [|exact I]. split; [reflexivity|]. split; [cbn; intuition discriminate|auto]. }
  exists s'. split; [exists fs0; split; [apply fs0_empty|constructor]|]. split; [exact W|]. split; [exact AS|]. split; [apply hello_req|].
  split. { rewrite (accepted_run KL toy3 any_cfg notes in_opts [str "notes"] in_line hello W AS). cbn [job_prog] in E. rewrite run_bind in E.
    destruct (run (main_store KL toy3 hello) fs0) as [t [i|d]]; cbn [run] in E; [|discriminate E]. injection E as -> ->. auto. }
  split; [auto|]. rewrite A2. split; [cbn; lia|]. split; [reflexivity|].
  split; [apply valid_iff; [apply KL_ok|vm_compute; reflexivity]|]. split; [reflexivity|]. split; [apply out_hello|]. split; [apply no_help|reflexivity].
Qed.

Lemma unknown_case : reach KL toy3 (mkWorld fs0 []) /\ good_id (c_prefix KL) (c_idsize KL) hello_dig hello_dig /\ unknown KL toy3 fs0 hello_dig /\ (0 < c_fuel KL)%nat /\
  written get_vals get_flags out_opts [hello_dig] (out_line hello_dig) /\ ~ In (o_h, None) out_opts.
Proof.
  split; [exists fs0; split; [apply fs0_empty|constructor]|]. split; [apply valid_iff; [apply KL_ok|vm_compute; reflexivity]|].
  split; [apply no_key; reflexivity|]. split; [cbn; lia|]. split; [apply out_hello|apply no_help].
Qed.

Lemma emptied : exists C L x os arg nid args f o, conf_ok C /\ zlib_ok L /\ reach C L x /\ good_id (c_prefix C) (c_idsize C) arg nid /\ unknown C L (wo_fs x) nid /\
  written get_vals get_flags os [arg] args /\ given o_o os = [f] /\
  run (get_cmd C L (fun _ => true) args) (wo_fs x) = (wo_fs x, inl (1, o)) /\ g_file o = Some (f, []).
Proof.
  destruct unknown_case as (R & GI & UN & FU & W & NH).
  destruct (get_unknown KL toy3 (fun _ => true) (mkWorld fs0 []) hello_dig hello_dig out_opts (out_line hello_dig)) as (o & E & _ & _ & F); auto; [apply KL_ok|apply toy3_ok|intros j p []|].
  exists KL, toy3, (mkWorld fs0 []), out_opts, hello_dig, hello_dig, (out_line hello_dig), (str "out"), o.
  split; [apply KL_ok|]. split; [apply toy3_ok|]. split; [auto|]. split; [auto|]. split; [auto|]. split; [auto|]. split; [reflexivity|]. split; [auto|]. exact F.
Qed.

Lemma unopened : exists C L x os arg args r, conf_ok C /\ zlib_ok L /\ reach C L x /\ In (JStore r, Ret (Some (c_prefix C ++ arg))) (wo_procs x) /\
  written get_vals get_flags os [arg] args /\ run (get_cmd C L (fun _ => false) args) (wo_fs x) = (wo_fs x, inr DUB).
Proof.
  destruct big_there as (x & R & AD & AP & HI & SD & FU & _ & GI & LB & W & NH & OZ & _). exists K, toy, x, out_opts, big_dig, (out_line big_dig), big.
  assert (CO : conf_ok K) by apply K_ok.
  split; [auto|]. split; [apply toy_ok|]. split; [auto|]. split; [exact HI|]. split; [auto|].
  destruct (end_headers K toy CO toy_ok x x big big_id big_dig big_dig R AD AP HI FU) with (quiet := true) (hdr_only := false) as (r' & b' & hd & _ & _ & E & _); auto.
  - clear - FU. change (c_fuel K) with 50%nat in FU. lia.
  - constructor.
  - intros e H. left. auto.
  - eapply get_unopened; [exact W|exact NH|reflexivity|reflexivity|reflexivity|]. exact E.
Qed.

Lemma refused_get : let args := [str "-q"; hello_dig; big_dig] in forall os arg, written get_vals get_flags os [arg] args -> In (o_h, None) os.
Proof.
  cbv zeta. intros os arg W. apply get_getopt in W. vm_compute in W. destruct os as [|[c v] [|]]; discriminate W.
Qed.
Lemma invalid_case : (forall nid, ~ good_id (c_prefix KL) (c_idsize KL) (str "notes") nid) /\
  written get_vals get_flags out_opts [str "notes"] (out_line (str "notes")) /\ ~ In (o_h, None) out_opts.
Proof.
  split; [|split; [apply get_getopt; vm_compute; reflexivity|apply no_help]].
  intros nid GI. apply valid_iff in GI; [|apply KL_ok]. vm_compute in GI. discriminate GI.
Qed.
