(* An archive with an object in two segments, for the examples about reasons. *)
From Coq Require Import String.
From Coq Require Import ZifyBool ZifyNat ZifyN.
From Verif Require Import Base BaseLemmas ListLemmas IndexModel IndexSpec HeaderModel HeaderSpec HeaderProofs InflateSpec GzipModel GzipSpec ProgModel StoreModel StoreSpec StoreSysModel
  StoreWp StoreCalls StoreSys StoreHdr StoreGet StoreWorld StoreAgain StoreOrigin StoreToy StoreToyOk StoreWit StoreRuns StoreEnd LiveSpec CgiModel CgiSpec CgiMain CgiRuns IdsMain AuditRuns
  CmdModel CmdSpec CmdMain GetcModel GetcSpec GetcMain OthMain WhyModel WhySpec WhyMain.
Open Scope string_scope.
Open Scope list_scope.
Open Scope N_scope.

Definition typed (s : fs) (t : bytes) (e : ixent) : bool :=
  match head_of s e with Some hd => match hget hd "WARC-Type" with Some v => bytes_eqb v t | None => false end | None => false end.
Definition later (s : fs) (e : ixent) : bool :=
  match head_of s e with Some hd => match hget hd "WARC-Segment-Number" with Some v => negb (bytes_eqb v (str "1")) | None => false end | None => false end.
Definition foreign (s : fs) (id : bytes) : bool := forallb (fun e => match head_of s e with Some hd => negb (caseeq (h_id hd) id) | None => false end) (f_idx s).
Lemma foreign_ok s id : foreign s id = true -> unknown K toy s id.
Proof.
  intros F n o w e IA LI. unfold foreign in F. rewrite forallb_forall in F. destruct (head_ok _ _ _ _ _ IA) as (HO & IE & _). specialize (F e IE). rewrite HO in F.
  rewrite (proj2 (caseeq_lower _ _) LI) in F. discriminate F.
Qed.
Definition variety (s : fs) : bool := existsb (typed s (str "warcinfo")) (f_idx s) && existsb (fun e => typed s (str "continuation") e && later s e) (f_idx s) && foreign s hello_dig.

Lemma typed_ok x t e : reach K toy x -> (forall j p, In (j, p) (wo_procs x) -> exists a, p = Ret a) -> In e (f_idx (wo_fs x)) -> typed (wo_fs x) t e = true ->
  exists n o w, in_archive K toy (wo_fs x) n o w e /\ has (wr_hdr w) "WARC-Type" t /\ good_id (c_prefix K) (c_idsize K) (h_id (wr_hdr w)) (h_id (wr_hdr w)) /\
    (later (wo_fs x) e = true -> exists k, has (wr_hdr w) "WARC-Segment-Number" k /\ k <> str "1").
Proof.
  intros R AD IE T. pose proof (reach_inv K toy K_ok toy_ok x R) as I. destruct (entry_settled K toy _ e I IE) as (w & IA); [apply (all_done K toy K_ok toy_ok x R AD)|].
  destruct (head_ok _ _ _ _ _ IA) as (HO & _ & _ & _ & HS). exists (e_silo e), (e_off e), w. split; auto. unfold typed, later in *. rewrite HO in *.
  destruct (hget (wr_hdr w) "WARC-Type") as [v|] eqn:G; [|discriminate]. apply bytes_eqb_true in T. subst v. split; [apply has_get; auto|]. split.
  - split; [eapply id_hex; eauto using K_ok, toy_ok|]. split; [eapply id_len; eauto using K_ok, toy_ok|auto].
  - destruct (hget (wr_hdr w) "WARC-Segment-Number") as [k|] eqn:G'; [|discriminate]. intros H. exists k. split; [apply has_get; auto|]. intros ->. discriminate H.
Qed.

Lemma why_case : exists x, reach K toy x /\ (forall j p, In (j, p) (wo_procs x) -> exists a, p = Ret a) /\ apart K (wo_fs x) /\ (0 < c_fuel K)%nat /\
  unknown K toy (wo_fs x) hello_dig /\ good_id (c_prefix K) (c_idsize K) hello_id hello_dig /\
  (exists n o w e, in_archive K toy (wo_fs x) n o w e /\ has (wr_hdr w) "WARC-Type" (str "warcinfo") /\ good_id (c_prefix K) (c_idsize K) (h_id (wr_hdr w)) (h_id (wr_hdr w))) /\
  (exists n o w e k, in_archive K toy (wo_fs x) n o w e /\ has (wr_hdr w) "WARC-Type" (str "continuation") /\ good_id (c_prefix K) (c_idsize K) (h_id (wr_hdr w)) (h_id (wr_hdr w)) /\
     has (wr_hdr w) "WARC-Segment-Number" k /\ k <> str "1").
Proof.
  destruct (go_all (each [JStore big] 0) [inl (Some big_id)] (fun x => quiet 4 x && variety (wo_fs x))) as (x & R & E & O); [vm_cast_no_check (eq_refl true)|reflexivity|].
  rewrite andb_true_iff in O. destruct O as (O1 & O2). unfold variety in O2. rewrite !andb_true_iff, !existsb_exists in O2. destruct O2 as (((e1 & I1 & T1) & (e2 & I2 & T2)) & FO).
  apply andb_true_iff in T2. destruct T2 as (T2 & T3).
  assert (AD : forall j p, In (j, p) (wo_procs x) -> exists a, p = Ret a). { rewrite E. intros j p [X|[]]. injection X as _ <-. eauto. }
  exists x. split; auto. split; auto. split; [apply (quiet_ok _ _ O1)|]. split; [vm_compute; lia|]. split; [apply foreign_ok; auto|].
  split; [apply valid_iff; [apply K_ok|vm_compute; reflexivity]|]. split.
  - destruct (typed_ok x _ e1 R AD I1 T1) as (n & o & w & A & B & D & _). exists n, o, w, e1. auto.
  - destruct (typed_ok x _ e2 R AD I2 T2) as (n & o & w & A & B & D & F). destruct (F T3) as (k & F1 & F2). exists n, o, w, e2, k. auto.
Qed.

Definition bad_env : cgi_env := mkEnv (Some (str "CGI/1.1")) (Some (str "POST")) (Some (str "/x")) None.
Lemma refused_cgi_case : ~ written [] [o_h] [] [] [str "x"] /\ ~ cgi_fine bad_env.
Proof. split; [intros W; apply hk_getopt in W; discriminate W|]. intros (_ & H & _). discriminate H. Qed.
Lemma script_case : fault (c_prefix K) (c_idsize K) (str "<script>") (str "ID is invalid (non-hex characters)") /\ cgi_get (env (str "/<script>") None) (str "<script>") /\
  fault (c_prefix K) (c_idsize K) (c_prefix K ++ str "123") (str "ID is invalid (too short)").
Proof.
  split; [apply fault_iff; vm_compute; auto|]. split; [|apply fault_iff; vm_compute; auto]. split; [reflexivity|]. split; [reflexivity|]. exists (str "/<script>"). split; [reflexivity|]. left. reflexivity.
Qed.
