(* Command lines in an archive, and examples. *)
From Coq Require Import String.
From Coq Require Import ZifyBool ZifyNat ZifyN.
From Verif Require Import Base BaseLemmas ListLemmas IndexModel IndexSpec HeaderModel ProgModel StoreModel StoreSpec StoreSysModel StoreHdr StoreWp StoreAgain
  StoreMain StoreWorld StoreOrigin StoreToy StoreWit StoreRuns StoreEnd LiveSpec LiveMain LiveJob LiveToy LiveEnd LiveRuns ConfigModel ConfigSpec CmdModel CmdSpec CmdMain.
Open Scope string_scope.
Open Scope list_scope.
Open Scope N_scope.

Lemma unknown_reference C L x r nid : conf_ok C -> zlib_ok L -> reach C L x -> (forall j p, In (j, p) (wo_procs x) -> exists a, p = Ret a) ->
  request_ok r -> r_meta r = true -> good_id (c_prefix C) (c_idsize C) (r_ref r) nid -> unknown C L (wo_fs x) nid -> (0 < c_fuel C)%nat ->
  run (main_store C L r) (wo_fs x) = (wo_fs x, inr DExit).
Proof.
  intros CO ZO RX AD RO M GI UN FU. pose proof (all_done C L CO ZO x RX AD) as Q. destruct (reach_inv C L CO ZO x RX) as (AO & DT).
  assert (GF : good_id (c_prefix C) (c_idsize C) (full_ref C r) nid).
  { unfold full_ref. destruct (len (r_ref r) =? c_idsize C) eqn:LN; [|auto]. destruct GI as (W1 & W2 & W3). assert (E : r_ref r = nid).
    { destruct W3 as [|(p & W3 & W4)]; [auto|]. rewrite W4, len_app in LN. assert (len p = 0) by lia. destruct p; [auto|rewrite len_cons in *; lia]. }
    split; [auto|]. split; [auto|]. right. exists (c_prefix C). rewrite E. auto. }
  assert (GV : gives C (wo_fs x) (full_ref C r) None).
  { destruct GI as (W1 & W2 & _). pose proof (unknown_gives C L CO (wo_fs x) nid AO DT Q UN FU W1 W2) as G. unfold gives, GetJob_New in *.
    apply valid_iff in GF; auto. rewrite GF. assert (V : IDX_Valid_Id (c_prefix C) (c_idsize C) nid = IdOk nid) by (apply valid_iff; [auto|split; auto]).
    rewrite V in G. exact G. }
  unfold main_store, store_feed. fold (ref_part C r). rewrite run_bind, run_bind. pose proof (ref_result C CO r) as X. rewrite M in X.
  destruct (andb _ _) eqn:V in X; rewrite X; cbn [run]; [|auto]. destruct (r_data r); [auto|].
  destruct RO as [(RM1 & RM2 & RM3) FA RS]. destruct DT as (DL & DC & DB).
  unfold sys at 1. cbn [bindp run exec].
  assert (G0 : hgood (Header_New (c_idsize C))) by (split; constructor).
  destruct (hset_ret (c_prefix C) (Header_New (c_idsize C)) "WARC-Date" (f_clock (wo_fs x))) as (h1 & E1 & G1 & _); [auto|reflexivity|split; auto|].
  rewrite E1. cbn [bindp].
  destruct (hset_ret (c_prefix C) h1 "Content-Type" (r_mime r)) as (h2 & E2 & G2 & _); [auto|reflexivity|split; auto|].
  rewrite E2. cbn [bindp].
  destruct (hset_ret (c_prefix C) h2 "WARC-Type" (req_type r)) as (h3 & E3 & G3 & _); [auto|reflexivity| |].
  { unfold req_type. destruct (r_meta r); apply goodb_val; reflexivity. }
  unfold req_type in E3. rewrite E3. cbn [bindp]. rewrite run_bind, run_bind, GV. reflexivity.
Qed.

Lemma reference_end C L x r nid cfg input os ops args : conf_ok C -> zlib_ok L -> reach C L x -> (forall j p, In (j, p) (wo_procs x) -> exists a, p = Ret a) ->
  written store_vals store_flags os ops args -> asks C cfg input os ops r -> request_ok r -> r_meta r = true ->
  good_id (c_prefix C) (c_idsize C) (r_ref r) nid -> unknown C L (wo_fs x) nid -> (0 < c_fuel C)%nat ->
  run (store_cmd C L cfg input args) (wo_fs x) = (wo_fs x, inr DExit).
Proof. intros CO ZO RX AD W A. rewrite (accepted C L cfg input os ops args r W A). intros. eapply unknown_reference; eauto. Qed.

(* a configuration which allows everything *)
Definition any_cfg : config := [mkSc (str "resource.mime-types") [mkE (str "*") None]; mkSc (str "metadata.mime-types") [mkE (str "text/plain") None]].
Definition one_file (l : list rd) (f : option bytes) : option (list rd) :=
  match f with Some n => if bytes_eqb n (str "notes") then Some l else None | None => None end.
Definition line : list bytes := [str "-tMetadata"; str "-m"; str "Text/plain"; str "-r"; hello_dig; str "--"; str "notes"].
Definition line_opts : list (N * option bytes) :=
  [(o_t, Some (str "Metadata")); (o_m, Some (str "Text/plain")); (o_r, Some hello_dig)].
Definition line_req : request := mkReq true (str "Text/plain") hello_dig None [str "some "; str "notes"].

Lemma line_written : written store_vals store_flags line_opts [str "notes"] line.
Proof. apply store_getopt. vm_compute. reflexivity. Qed.
Lemma line_asks : asks KL any_cfg (one_file [RData (str "some "); RData (str "notes")]) line_opts [str "notes"] line_req.
Proof.
  constructor.
  - cbn. intuition discriminate.
  - right. exists (str "Metadata"). split; [reflexivity|]. right. split; reflexivity.
  - reflexivity.
  - exists (mkSc (str "metadata.mime-types") [mkE (str "text/plain") None]), (mkE (str "text/plain") None). split; [|split; [left; auto|right; reflexivity]].
    exists [mkSc (str "resource.mime-types") [mkE (str "*") None]], []. split; [reflexivity|]. split; [reflexivity|]. intros y [<-|[]]. vm_compute. discriminate.
  - split; [reflexivity|]. exists hello_dig. apply valid_iff; [apply KL_ok|]. vm_compute. reflexivity.
  - split; [left; auto|]. discriminate.
  - split; [discriminate|]. exists (Some (str "notes")), [RData (str "some "); RData (str "notes")], []. split; [constructor; discriminate|]. split; [reflexivity|].
    split; [|exact I]. split; [reflexivity|]. split; [cbn; intuition discriminate|auto].
Qed.
Lemma line_case : written store_vals store_flags line_opts [str "notes"] line /\
  asks KL any_cfg (one_file [RData (str "some "); RData (str "notes")]) line_opts [str "notes"] line_req.
Proof. exact (conj line_written line_asks). Qed.

(* refused: -r without -t metadata *)
Lemma refused_case : let args := [str "-r"; hello_dig; str "notes"] in
  (forall f l, one_file [RData (str "x")] f = Some l -> ~ breaks_off l) /\
  (forall os ops r, written store_vals store_flags os ops args -> ~ asks KL any_cfg (one_file [RData (str "x")]) os ops r).
Proof.
  cbv zeta. split.
  - intros f l E. unfold one_file in E. destruct f as [n|]; [|discriminate]. destruct (bytes_eqb n (str "notes")); [|discriminate]. injection E as <-.
    intros (ds & r & _ & D & _). destruct ds as [|d [|]]; discriminate.
  - intros os ops r W A. apply store_getopt in W. assert (E : getopt "hi:m:t:r:" [str "-r"; hello_dig; str "notes"] = (map ev [(o_r, Some hello_dig)], [str "notes"])) by (vm_compute; reflexivity).
    rewrite E in W. injection W as W1 _. destruct os as [|[c v] [|]]; try discriminate. cbn in W1. injection W1 as <- <-.
    destruct A as [_ [(_ & T)|(v & T & _)] _ _ R _ _]; [|discriminate]. rewrite T in R. destruct R. discriminate.
Qed.

(* the reference of [line] is not in an empty archive *)
Lemma reference_case : exists x, reach KL toy3 x /\ (forall j p, In (j, p) (wo_procs x) -> exists a, p = Ret a) /\
  request_ok line_req /\ r_meta line_req = true /\ good_id (c_prefix KL) (c_idsize KL) (r_ref line_req) hello_dig /\ unknown KL toy3 (wo_fs x) hello_dig /\ (0 < c_fuel KL)%nat.
Proof.
  exists (mkWorld fs0 []). split; [exists fs0; split; [apply fs0_empty|constructor]|]. split; [intros j p []|].
  split; [apply job_okb_ok with (j := JStore line_req); reflexivity|]. split; [reflexivity|].
  split; [apply valid_iff; [apply KL_ok|]; vm_compute; reflexivity|]. split; [apply no_key; reflexivity|]. cbn. lia.
Qed.

Lemma read_refuted : exists C L cfg input args s d s' id, conf_ok C /\ zlib_ok L /\ empty_fs s /\
  input None = Some [RData d; RErr] /\ breaks_off [RData d; RErr] /\
  run (store_cmd C L cfg input args) s = (s', inl (c_prefix C ++ id)) /\ exists p, stored_as C L s' (str "resource") id d p.
Proof.
  destruct hello_req as (H1 & H2 & H3 & H4 & H5 & H6). destruct new_case as (x & _).
  assert (RX : reach KL toy3 (mkWorld fs0 [])) by (exists fs0; split; [apply fs0_empty|constructor]).
  destruct (new_end KL toy3 KL_ok toy3_ok toy3_live (mkWorld fs0 []) RX (fun j p F => match F with end) hello hello_dig H1 H2 H3 H4) as (s' & E & _ & P); auto.
  - exists 0. split; [reflexivity|]. split; reflexivity.
  - discriminate.
  - apply no_key. reflexivity.
  - exists KL, toy3, any_cfg, (fun f => match f with None => Some [RData (List.concat (r_data hello)); RErr] | _ => None end),
      [str "-m"; r_mime hello], fs0, (List.concat (r_data hello)), s', hello_dig.
    split; [apply KL_ok|]. split; [apply toy3_ok|]. split; [apply fs0_empty|]. split; [reflexivity|]. split.
    + exists [List.concat (r_data hello)], []. split; [discriminate|]. split; [reflexivity|]. split; [|right; eauto]. vm_compute. intuition discriminate.
    + split; [|exact P]. rewrite <- E. f_equal.
Qed.

(* main.c *)
Definition nl : bytes := [10].
Definition mine : bytes := str "WARC-Record-ID:" ++ nl ++ str " http://x/" ++ nl ++ str "silo.directory:" ++ nl ++ str " /home/u/silos" ++ nl.
Definition theirs : bytes := str "WARC-Record-ID:" ++ nl ++ str " http://x/" ++ nl ++ str "silo.directory:" ++ nl ++ str " /archive/" ++ nl.
Definition two_files (f : bytes) : option bytes :=
  if bytes_eqb f (str "/home/u/.aardwarc.conf") then Some mine else if bytes_eqb f (str "/etc/aardwarc.conf") then Some theirs else None.
Definition vnum0 (b : bytes) : option N := Some 10000000.

Lemma other_refuted : exists files home aa, files (home ++ str "/.aardwarc.conf") <> None /\
  main (fun _ => 128) vnum0 (fun _ => true) files (Some home) 1024 [str "store"; str "notes"] = MRun aa CStore false [str "notes"] /\
  aa_silo_dirname aa = str "/archive/" /\
  load (fun _ => 128) vnum0 (fun _ => true) files (str "/etc/aardwarc.conf") = Some aa.
Proof.
  exists two_files, (str "/home/u"). eexists. split; [vm_compute; discriminate|]. split; [vm_compute; reflexivity|]. split; vm_compute; reflexivity.
Qed.
Lemma long_refuted : exists files home, load (fun _ => 128) vnum0 (fun _ => true) files (str "/etc/aardwarc.conf") <> None /\
  main (fun _ => 128) vnum0 (fun _ => true) files (Some home) 1024 [str "info"] = MAbort.
Proof. exists two_files, (repeat 47 1010). split; [vm_compute; discriminate|vm_compute; reflexivity]. Qed.

Definition main_line : list bytes := [str "-jc/etc/aardwarc.conf"; str "info"; str "-h"].
Lemma main_case : exists aa, written main_vals main_flags [(o_j, None); (o_c, Some (str "/etc/aardwarc.conf"))] [str "info"; str "-h"] main_line /\
  main (fun _ => 128) vnum0 (fun _ => true) two_files None 1024 main_line = MRun aa CInfo true [str "-h"].
Proof. eexists. split; [apply main_getopt; vm_compute; reflexivity|vm_compute; reflexivity]. Qed.
