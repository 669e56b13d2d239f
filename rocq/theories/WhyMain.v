(* Proofs about the reasons given when an object cannot be had. *)
From Coq Require Import String.
From Coq Require Import ZifyBool ZifyNat ZifyN.
From Verif Require Import Base BaseLemmas ListLemmas IndexModel IndexSpec IndexProofs HeaderModel HeaderSpec HeaderProofs InflateSpec GzipModel GzipSpec ProgModel StoreModel StoreSpec StoreSysModel
  StoreWp StoreCalls StoreSys StoreHdr StoreGet StoreWorld StoreAgain LiveSpec LiveMain LiveJob LiveEnd CgiModel CgiSpec CgiMain FilterProofs CmdModel CmdSpec CmdMain GetcModel GetcSpec GetcMain OthMain WhyModel WhySpec.
Open Scope string_scope.
Open Scope list_scope.
Open Scope N_scope.

Section Why.
Variable C : conf.
Variable L : zlib.
Notation prefix := (c_prefix C).

(* forgetting the reason *)
Definition forget (x : bytes + list getjobseg) : option (list getjobseg) := match x with inl _ => None | inr g => Some g end.
Definition forget1 (x : why_res) : iter_res := match x with WNext => ItNext | WErr _ => ItErr | WGot g => ItGot g end.
Definition rmap {A B} (f : A -> B) (r : fs * (A + death)) : fs * (B + death) := (fst r, match snd r with inl a => inl (f a) | inr d => inr d end).

Lemma forget_iter id segs e s : run (getjob_iter C id segs e) s = rmap forget1 (run (why_iter C id segs e) s).
Proof.
  unfold getjob_iter, why_iter. rewrite !run_bind. unfold sys. cbn [run exec]. destruct (f_silo s (e_silo e)) as [[b w]|]; [|reflexivity].
  rewrite !run_bind. destruct (Rsilo_ReadHeader C b (e_off e)) as [[[[hd bl] boff]|]| | |]; try reflexivity. cbn [lift run].
  destruct (flag (e_flags e) IDX_F_WARCINFO && caseeq (Header_Get_Id hd) id); [reflexivity|]. destruct segs as [|g segs].
  - destruct (negb (caseeq (Header_Get_Id hd) id)); [reflexivity|]. destruct (flag (e_flags e) IDX_F_SEGMENTED && negb (flag (e_flags e) IDX_F_FIRSTSEG)); reflexivity.
  - destruct (Header_Get hd (str "WARC-Segment-Origin-ID")) as [o|]; [|reflexivity].
    destruct (nth 0 o 0 =? 60); [|reflexivity]. cbn [assert bindp].
    destruct (bytes_eqb _ prefix); [|reflexivity]. cbn [assert bindp].
    destruct (nth (N.to_nat (c_idsize C)) _ 0 =? 62); [|reflexivity]. cbn [assert bindp].
    destruct (len _ =? c_idsize C + 1); [|reflexivity]. cbn [assert bindp].
    destruct (negb (ncaseeq _ _ id)); [reflexivity|]. rewrite !run_bind. destruct (Header_Get_Number hd (str "WARC-Segment-Number")) as [im| | |]; try reflexivity.
    cbn [lift run]. destruct (0 <=? im)%Z; [|reflexivity]. cbn [assert bindp]. destruct (negb (_ =? _)); reflexivity.
Qed.
Lemma forget_iters id segs : forall es s, run (iter_loop C id segs es) s = rmap forget1 (run (why_iters C id segs es) s).
Proof.
  induction es as [|e es IH]; intros s; cbn [iter_loop why_iters]; [reflexivity|]. rewrite !run_bind, forget_iter.
  destruct (run (why_iter C id segs e) s) as [s1 [[|m|g]|d]]; cbn [rmap fst snd forget1]; auto.
Qed.
Lemma forget_loop id : forall fuel segs nid s, run (getjob_loop C fuel id segs nid) s = rmap forget (run (why_loop C fuel id segs nid) s).
Proof.
  induction fuel as [|fu IH]; intros segs nid s; cbn [getjob_loop why_loop]; [reflexivity|]. rewrite !run_bind. unfold sys. cbn [run exec]. rewrite !run_bind, forget_iters.
  destruct (run (why_iters C id segs (filter (askedb nid) (f_idx s))) s) as [s1 [[|m|g]|d]]; cbn [rmap fst snd forget1]; try reflexivity.
  destruct (flag (g_flag g) IDX_F_WARCINFO); [reflexivity|]. cbn [negb assert bindp]. destruct (flag (g_flag g) IDX_F_SEGMENTED); cbn [negb].
  - destruct (flag (g_flag g) IDX_F_LASTSEG); [reflexivity|apply IH].
  - destruct (flag (g_flag g) IDX_F_FIRSTSEG); [reflexivity|]. cbn [negb assert bindp]. destruct (flag (g_flag g) IDX_F_LASTSEG); [reflexivity|]. cbn [negb assert bindp].
    destruct (bytes_eqb (g_cont g) (str "00000000")); [|reflexivity]. cbn [assert bindp]. destruct segs; reflexivity.
Qed.
Lemma forget_new id s : run (GetJob_New C id) s = rmap forget (run (GetJob_Why C id) s).
Proof. unfold GetJob_New, GetJob_Why. destruct (IDX_Valid_Id prefix (c_idsize C) id); try reflexivity. apply forget_loop. Qed.

(* a lookup leaves everything as it is *)
Lemma new_keeps id s s' o : run (GetJob_Why C id) s = (s', o) -> s' = s.
Proof.
  intros E. pose proof (forget_new id s) as F. rewrite (lookup_same _ s s) in F by (auto; apply lookup_new). rewrite E in F. apply (f_equal fst) in F. cbn in F. auto.
Qed.

(* the reasons *)
Lemma iter_reasons id segs e s s' m : run (why_iter C id segs e) s = (s', inl (WErr m)) -> In m all_reasons.
Proof.
  unfold why_iter. rewrite !run_bind. unfold sys. cbn [run exec]. destruct (f_silo s (e_silo e)) as [[b w]|]; [|discriminate].
  rewrite !run_bind. destruct (Rsilo_ReadHeader C b (e_off e)) as [[[[hd bl] boff]|]| | |]; try discriminate. cbn [lift run].
  destruct (flag (e_flags e) IDX_F_WARCINFO && caseeq (Header_Get_Id hd) id); [intros [= <- <-]; do 5 right; left; reflexivity|]. destruct segs as [|g segs].
  - destruct (negb (caseeq (Header_Get_Id hd) id)); [discriminate|].
    destruct (flag (e_flags e) IDX_F_SEGMENTED && negb (flag (e_flags e) IDX_F_FIRSTSEG)); [|discriminate]. intros [= <- <-]. do 6 right; left; reflexivity.
  - destruct (Header_Get hd (str "WARC-Segment-Origin-ID")) as [o|]; [|discriminate].
    destruct (nth 0 o 0 =? 60); [|discriminate]. cbn [assert bindp].
    destruct (bytes_eqb _ prefix); [|discriminate]. cbn [assert bindp].
    destruct (nth (N.to_nat (c_idsize C)) _ 0 =? 62); [|discriminate]. cbn [assert bindp].
    destruct (len _ =? c_idsize C + 1); [|discriminate]. cbn [assert bindp].
    destruct (negb (ncaseeq _ _ id)); [discriminate|]. rewrite !run_bind. destruct (Header_Get_Number hd (str "WARC-Segment-Number")) as [im| | |]; try discriminate.
    cbn [lift run]. destruct (0 <=? im)%Z; [|discriminate]. cbn [assert bindp]. destruct (negb (_ =? _)); [|discriminate]. intros [= <- <-]. do 7 right; left; reflexivity.
Qed.
Lemma iters_reasons id segs : forall es s s' m, run (why_iters C id segs es) s = (s', inl (WErr m)) -> In m all_reasons.
Proof.
  induction es as [|e es IH]; intros s s' m; cbn [why_iters]; [discriminate|]. rewrite run_bind.
  destruct (run (why_iter C id segs e) s) as [s1 [[|m'|g]|d]] eqn:E; try discriminate; [apply IH|]. intros [= <- <-]. eapply iter_reasons; eauto.
Qed.
Lemma loop_reasons id : forall fuel segs nid s s' m, run (why_loop C fuel id segs nid) s = (s', inl (inl m)) -> In m all_reasons.
Proof.
  induction fuel as [|fu IH]; intros segs nid s s' m; cbn [why_loop]; [discriminate|]. rewrite run_bind. unfold sys. cbn [run exec]. rewrite run_bind.
  destruct (run (why_iters C id segs (filter (askedb nid) (f_idx s))) s) as [s1 [[|m'|g]|d]] eqn:E; try discriminate.
  - intros [= <- <-]. do 4 right; left; reflexivity.
  - intros [= <- <-]. eapply iters_reasons; eauto.
  - destruct (flag (g_flag g) IDX_F_WARCINFO); [discriminate|]. cbn [negb assert bindp]. destruct (flag (g_flag g) IDX_F_SEGMENTED); cbn [negb].
    + destruct (flag (g_flag g) IDX_F_LASTSEG); [discriminate|apply IH].
    + destruct (flag (g_flag g) IDX_F_FIRSTSEG); [discriminate|]. cbn [negb assert bindp]. destruct (flag (g_flag g) IDX_F_LASTSEG); [discriminate|]. cbn [negb assert bindp].
      destruct (bytes_eqb (g_cont g) (str "00000000")); [|discriminate]. cbn [assert bindp]. destruct segs; discriminate.
Qed.
Lemma why_reasons id s s' m : run (GetJob_Why C id) s = (s', inl (inl m)) -> In m all_reasons.
Proof.
  unfold GetJob_Why. destruct (IDX_Valid_Id prefix (c_idsize C) id); [apply loop_reasons| | | |]; intros [= _ <-]; cbn [id_text all_reasons In]; auto 9.
Qed.

(* cgi *)
Definition shown (o : cgi_out) (r : N * bytes) : Prop :=
  match o with CgiUsage => r = (1, []) | CgiPage out => r = (0, out) | CgiError => exists m, In m all_reasons /\ fst r = 0 /\ error_page m (snd r) end.
Lemma page_reply m : error_page m (str "Content-Type: text/html" ++ [10] ++ str "Status: 501 Error" ++ [10] ++ [10] ++
                             str "<html>" ++ str "<pre>" ++ m ++ [10] ++ str "</pre>" ++ str "</html>").
Proof.
  split; [|reflexivity]. repeat (apply Forall_cons || apply Forall_nil); (split; [discriminate|cbn [fst snd]; split; [|split]; intros X; repeat (destruct X as [X|X]; [discriminate|]); destruct X]).
Qed.
Lemma cgi_as args e s : written [] [o_h] [] [] args -> forall s' o, run (main_cgi C L e) s = (s', inl o) -> exists r, run (cgi_cmd C L args e) s = (s', inl r) /\ shown o r.
Proof.
  intros W s' o. apply hk_getopt in W. unfold cgi_cmd, main_cgi. rewrite W. cbn [map].
  destruct (env_is (env_gateway e) "CGI/1.1"); cbn [negb]; [|intros [= <- <-]; eexists; split; reflexivity].
  destruct (env_is (env_method e) "GET"); cbn [negb]; [|intros [= <- <-]; eexists; split; reflexivity].
  destruct (env_path e) as [path|]; [|intros [= <- <-]; eexists; split; reflexivity]. rewrite !run_bind, forget_new.
  set (id := match path with [] => _ | _ => _ end). destruct (run (GetJob_Why C id) s) as [s1 [[m|segs]|d]] eqn:E; cbn [rmap fst snd forget]; [| |discriminate].
  - intros [= <- <-]. eexists. split; [reflexivity|]. exists m. assert (R := why_reasons _ _ _ _ E). split; auto. split; auto. apply page_reply.
  - rewrite !run_bind. destruct (run (lift (GetJob_Header true segs)) s1) as [s2 [hd|d]]; [|discriminate]. rewrite !run_bind.
    set (g := if GetJob_IsSegmented segs then _ else _). destruct (run (lift (GetJob_TotalLength g segs)) s2) as [s3 [n|d]]; [|discriminate]. rewrite !run_bind.
    destruct (run (if g then GetJob_Iter_gz L segs else GetJob_Iter segs) s3) as [s4 [dd|d]]; [|discriminate].
    intros [= <- <-]. eexists. split; reflexivity.
Qed.

Lemma env_is_iff p t : env_is p t = true <-> p = Some (str t).
Proof. unfold env_is. destruct p as [v|]; [|split; discriminate]. split; [intros H; apply bytes_eqb_true in H; congruence|intros [= ->]; apply bytes_eqb_refl]. Qed.

Lemma cgi_refused args e s : ~ written [] [o_h] [] [] args \/ ~ cgi_fine e -> run (cgi_cmd C L args e) s = (s, inl (1, [])).
Proof.
  intros H. unfold cgi_cmd. destruct (getopt "h" args) as [[|o evs] [|a ops]] eqn:G; auto. destruct H as [H|H]; [exfalso; apply H, hk_getopt; auto|].
  destruct (env_is (env_gateway e) "CGI/1.1") eqn:E1; auto. destruct (env_is (env_method e) "GET") eqn:E2; auto. cbn [negb].
  destruct (env_path e) as [path|] eqn:E3; auto. exfalso. apply H. split; [apply env_is_iff; auto|]. split; [apply env_is_iff; auto|congruence].
Qed.
Lemma looks_iter segs : allcalls looks_up (GetJob_Iter segs).
Proof. induction segs as [|g r IH]; cbn [GetJob_Iter]; [exact I|]. ac. Qed.
Lemma looks_pieces segs : allcalls looks_up (gz_pieces segs).
Proof. induction segs as [|g r IH]; cbn [gz_pieces]; [exact I|]. ac. Qed.
Lemma looks_cgi e : allcalls looks_up (main_cgi C L e).
Proof.
  unfold main_cgi. destruct (negb _); [exact I|]. destruct (negb _); [exact I|]. destruct (env_path e); [|exact I]. apply ac_bind; [apply lookup_new|]. intros [segs|]; [|exact I].
  apply ac_bind; [ac|]. intros h. apply ac_bind; [ac|]. intros n. apply ac_bind; [|intros d; exact I].
  destruct (if GetJob_IsSegmented segs then _ else _); [|apply looks_iter]. unfold GetJob_Iter_gz. apply ac_bind; [apply looks_pieces|]. ac.
Qed.
Lemma cgi_any args e s s' st out : run (cgi_cmd C L args e) s = (s', inl (st, out)) -> s' = s /\
  (st = 1 /\ out = [] \/ st = 0 /\ ((exists m, In m all_reasons /\ error_page m out) \/ run (main_cgi C L e) s = (s, inl (CgiPage out)))).
Proof.
  intros H. destruct (getopt "h" args) as [ev ops] eqn:G.
  assert (D : (ev = [] /\ ops = []) \/ ~ (ev = [] /\ ops = [])) by (destruct ev, ops; auto; right; intros (X & Y); discriminate).
  destruct D as [(-> & ->)|D].
  - assert (W : written [] [o_h] [] [] args) by (apply hk_getopt; auto). pose proof (lookup_same _ s s (looks_cgi e) eq_refl eq_refl) as LS.
    destruct (snd (run (main_cgi C L e) s)) as [o|d] eqn:E.
    + destruct (cgi_as args e s W s o LS) as (r & R & S). rewrite R in H. injection H as <- ->. split; auto. destruct o as [| |pg]; cbn [shown] in S.
      * injection S as -> ->. auto.
      * destruct S as (m & IM & F0 & EP). cbn [fst snd] in *. right. eauto.
      * injection S as -> ->. right. auto.
    + exfalso. revert H LS. unfold cgi_cmd, main_cgi. rewrite G.
      destruct (env_is (env_gateway e) "CGI/1.1"); cbn [negb]; [|discriminate]. destruct (env_is (env_method e) "GET"); cbn [negb]; [|discriminate].
      destruct (env_path e) as [path|]; [|discriminate]. rewrite !run_bind, forget_new.
      set (id := match path with [] => _ | _ => _ end). destruct (run (GetJob_Why C id) s) as [s1 [[m|segs]|d1]] eqn:E1; cbn [rmap fst snd forget]; [discriminate| |discriminate].
      rewrite !run_bind. destruct (run (lift (GetJob_Header true segs)) s1) as [s2 [hd|d2]]; [|discriminate]. rewrite !run_bind.
      set (g := if GetJob_IsSegmented segs then _ else _). destruct (run (lift (GetJob_TotalLength g segs)) s2) as [s3 [n|d2]]; [|discriminate]. rewrite !run_bind.
      destruct (run (if g then GetJob_Iter_gz L segs else GetJob_Iter segs) s3) as [s4 [dd|d2]]; discriminate.
  - rewrite cgi_refused in H. { injection H as <- <- <-. auto. } left. intros W. apply hk_getopt in W. rewrite G in W. injection W as -> ->. auto.
Qed.

Lemma says_of s arg m : In m all_reasons -> run (GetJob_Why C arg) s = (s, inl (inl m)) -> says C L s arg m.
Proof.
  intros _ E. split.
  - intros args e W (E1 & E2 & path & E3 & PI). apply hk_getopt in W. unfold cgi_cmd. rewrite W. cbn [map].
    rewrite (proj2 (env_is_iff _ _) E1), (proj2 (env_is_iff _ _) E2), E3. cbn [negb]. rewrite run_bind.
    replace (match path with [] => path | c :: r => if c =? 47 then r else path end) with arg.
    + rewrite E. eexists. split; [reflexivity|]. apply page_reply.
    + destruct PI as [->|(-> & NS)]; [reflexivity|]. destruct arg as [|c r]; auto. destruct (c =? 47) eqn:Q; auto. apply N.eqb_eq in Q. subst c. destruct (NS r); auto.
  - intros os args openable W NH. split.
    + pose proof (written_wf _ _ _ _ _ W) as WF. apply get_getopt in W. unfold get_why. rewrite W, get_opts_spec by auto. rewrite run_bind, E. reflexivity.
    + eexists. apply (get_none C L openable os arg args s W NH). rewrite forget_new, E. reflexivity.
Qed.

(* faults *)
Hypothesis CO : conf_ok C.
Lemma bare_strip id r : bare prefix id r <-> strip_prefix prefix id = r.
Proof.
  split.
  - intros [(p & EP & ->)|(-> & N)]; [apply strip_yes; auto|]. unfold strip_prefix. destruct (ncaseeq (List.length prefix) id prefix) eqn:Y; auto. exfalso.
    unfold ncaseeq in Y. apply caseeq_lower in Y. rewrite firstn_all in Y. apply (N (firstn (List.length prefix) id) (skipn (List.length prefix) id)); auto. symmetry. apply firstn_skipn.
  - intros <-. unfold strip_prefix. destruct (ncaseeq (List.length prefix) id prefix) eqn:Y.
    + left. exists (firstn (List.length prefix) id). unfold ncaseeq in Y. apply caseeq_lower in Y. rewrite firstn_all in Y. split; auto. symmetry. apply firstn_skipn.
    + right. split; auto. intros p r EP ->. revert Y. unfold ncaseeq. rewrite (firstn_all prefix).
      assert (LP : List.length p = List.length prefix) by (apply (f_equal (@List.length N)) in EP; unfold lower in EP; rewrite !map_length in EP; auto).
      rewrite <- LP, firstn_app_len. replace (caseeq p prefix) with true; [discriminate|]. symmetry. apply caseeq_lower. auto.
Qed.
Lemma colon_iff r : existsb (fun c => (c =? 58) || (c =? 47)) r = true <-> In 58 r \/ In 47 r.
Proof.
  rewrite existsb_exists. split.
  - intros (c & I & H). apply orb_true_iff in H. destruct H as [H|H]; apply N.eqb_eq in H; subst c; auto.
  - intros [H|H]; eexists; (split; [exact H|reflexivity]).
Qed.
Lemma hex_colon r : hexstr r -> ~ In 58 r /\ ~ In 47 r.
Proof. intros H. unfold hexstr in H. rewrite Forall_forall in H. split; intros I; specialize (H _ I); discriminate H. Qed.
Definition wrong (v : idverdict) : Prop := match v with IdOk _ => False | _ => True end.
Lemma fault_iff id m : fault prefix (c_idsize C) id m <-> wrong (IDX_Valid_Id prefix (c_idsize C) id) /\ m = id_text (IDX_Valid_Id prefix (c_idsize C) id).
Proof.
  split.
  - intros H. unfold IDX_Valid_Id. destruct H as [r B H|r B H1 H2 H3|r B H1 H2|r B H1 H2]; apply bare_strip in B; rewrite B.
    + rewrite (proj2 (colon_iff r) H). split; [exact I|reflexivity].
    + replace (existsb _ r) with false by (symmetry; apply not_true_iff_false; rewrite colon_iff; tauto).
      replace (forallb is_hex r) with false by (symmetry; apply not_true_iff_false; intros X; apply H3, forallb_hexstr; auto). split; [exact I|reflexivity].
    + destruct (hex_colon r H1) as (N1 & N2). replace (existsb _ r) with false by (symmetry; apply not_true_iff_false; rewrite colon_iff; tauto).
      rewrite (proj2 (forallb_hexstr r) H1). cbn [negb]. replace (len r <? c_idsize C) with true by (symmetry; apply N.ltb_lt; auto). split; [exact I|reflexivity].
    + destruct (hex_colon r H1) as (N1 & N2). replace (existsb _ r) with false by (symmetry; apply not_true_iff_false; rewrite colon_iff; tauto).
      rewrite (proj2 (forallb_hexstr r) H1). cbn [negb]. replace (len r <? c_idsize C) with false by (symmetry; apply N.ltb_ge; lia).
      replace (c_idsize C <? len r) with true by (symmetry; apply N.ltb_lt; auto). split; [exact I|reflexivity].
  - intros (W & ->). assert (B : bare prefix id (strip_prefix prefix id)) by (apply bare_strip; auto). revert W. unfold IDX_Valid_Id. set (r := strip_prefix prefix id) in *.
    destruct (existsb _ r) eqn:E1; [intros _; eapply f_prefix; [exact B|apply colon_iff; auto]|].
    assert (NC : ~ (In 58 r \/ In 47 r)) by (rewrite <- colon_iff; congruence).
    destruct (forallb is_hex r) eqn:E2; cbn [negb].
    + apply forallb_hexstr in E2. destruct (len r <? c_idsize C) eqn:E3; [intros _; eapply f_short; eauto; apply N.ltb_lt; auto|].
      destruct (c_idsize C <? len r) eqn:E4; [intros _; eapply f_long; eauto; apply N.ltb_lt; auto|]. intros [].
    + intros _. eapply f_digits; eauto. intros H. apply forallb_hexstr in H. congruence.
Qed.
Lemma fault_or id : (exists nid, good_id prefix (c_idsize C) id nid) \/ exists m, fault prefix (c_idsize C) id m.
Proof.
  destruct (IDX_Valid_Id prefix (c_idsize C) id) as [nid| | | |] eqn:V; [left; exists nid; apply valid_iff; auto| | | |]; right; eexists; apply fault_iff; rewrite V; (split; [exact I|reflexivity]).
Qed.
Lemma fault_one id m m' : fault prefix (c_idsize C) id m -> fault prefix (c_idsize C) id m' -> m = m'.
Proof. intros H1 H2. apply fault_iff in H1, H2. destruct H1 as (_ & ->), H2 as (_ & ->). auto. Qed.
Lemma fault_not_good id m nid : fault prefix (c_idsize C) id m -> ~ good_id prefix (c_idsize C) id nid.
Proof. intros H G. apply fault_iff in H. apply valid_iff in G; auto. rewrite G in H. destruct H as ([] & _). Qed.
Lemma fault_says s id m : fault prefix (c_idsize C) id m -> says C L s id m.
Proof.
  intros H. apply fault_iff in H. destruct H as (W & ->). apply says_of; unfold GetJob_Why; destruct (IDX_Valid_Id prefix (c_idsize C) id); try destruct W; cbn [id_text all_reasons In]; auto 9.
Qed.

(* an archive at rest *)
Hypothesis ZO : zlib_ok L.
Lemma iters_unknown s id : archive_ok C L s -> date_ok (f_clock s) -> at_rest s -> unknown C L s id -> forall es, (forall e, In e es -> In e (f_idx s)) ->
  run (why_iters C id [] es) s = (s, inl WNext).
Proof.
  intros AO DT QU UN. induction es as [|e es IH]; intros HI; cbn [why_iters]; [auto|]. rewrite run_bind.
  destruct (entry_settled C L s e (conj AO DT)) as (w & IA); [apply HI; left; auto|apply QU|].
  destruct (at_entry C L CO _ _ _ _ _ IA) as (b & a & H & B & z & wr & A1 & A2 & A3 & A4 & A5).
  assert (E : run (why_iter C id [] e) s = (s, inl WNext)).
  { unfold why_iter, sys. cbn [bindp run exec]. rewrite A1. cbn [bindp]. rewrite A5. cbn [lift bindp]. unfold Header_Get_Id.
    replace (caseeq (h_id (wr_hdr w)) id) with false by (symmetry; apply caseeq_lower_f; eapply UN; eauto). rewrite andb_false_r. reflexivity. }
  rewrite E. apply IH. intros e' He. apply HI. right. auto.
Qed.
Lemma unknown_says x arg nid : reach C L x -> (forall j p, In (j, p) (wo_procs x) -> exists a, p = Ret a) -> good_id prefix (c_idsize C) arg nid ->
  unknown C L (wo_fs x) nid -> (0 < c_fuel C)%nat -> says C L (wo_fs x) arg (str "ID not found").
Proof.
  intros RX AD GI UN FU. pose proof (all_done C L CO ZO x RX AD) as Q. destruct (reach_inv C L CO ZO x RX) as (AO & DT).
  apply says_of; [do 4 right; left; reflexivity|]. apply valid_iff in GI; auto. unfold GetJob_Why. rewrite GI. destruct (c_fuel C) as [|fu]; [lia|]. cbn [why_loop].
  unfold sys at 1. cbn [bindp run exec]. rewrite run_bind, iters_unknown; auto. intros e He. apply filter_In in He. tauto.
Qed.

Lemma the_entry s n o w e nid : apart C s -> in_archive C L s n o w e -> lower (h_id (wr_hdr w)) = lower nid -> len nid = c_idsize C ->
  exists k, filter (askedb nid) (f_idx s) = repeat e (S k).
Proof.
  intros (AP & _) (I1 & (_ & _ & KE & _) & _) LI LN.
  assert (A : askedb nid e = true) by (eapply asked_self; eauto).
  assert (F : Forall (fun e' => e' = e) (filter (askedb nid) (f_idx s))).
  { rewrite Forall_forall. intros e' H. apply filter_In in H. destruct H as (H1 & H2). apply (AP nid e' e); auto; apply askedb_asked; auto. }
  assert (IN : In e (filter (askedb nid) (f_idx s))) by (apply filter_In; auto).
  destruct (filter (askedb nid) (f_idx s)) as [|e0 l]; [destruct IN|]. exists (List.length l). clear - F. inversion_clear F as [|? ? H1 H2]. subst e0. cbn [repeat]. f_equal.
  induction H2 as [|e' l -> _ IH]; [auto|]. cbn [List.length repeat]. f_equal. auto.
Qed.
Lemma entry_says s n o w e arg nid m : apart C s -> in_archive C L s n o w e -> lower (h_id (wr_hdr w)) = lower nid -> good_id prefix (c_idsize C) arg nid -> (0 < c_fuel C)%nat ->
  In m all_reasons ->
  (flag (e_flags e) IDX_F_WARCINFO = true /\ m = str "ID is warcinfo segment" \/
   flag (e_flags e) IDX_F_WARCINFO = false /\ flag (e_flags e) IDX_F_SEGMENTED = true /\ flag (e_flags e) IDX_F_FIRSTSEG = false /\ m = str "ID is continuation segment") ->
  says C L s arg m.
Proof.
  intros AP IA LI GI FU IM FL. apply says_of; auto. destruct (the_entry s n o w e nid AP IA LI) as (k & EK); [apply GI|]. apply valid_iff in GI; auto. unfold GetJob_Why. rewrite GI.
  destruct (c_fuel C) as [|fu]; [lia|]. cbn [why_loop]. unfold sys at 1. cbn [bindp run exec]. rewrite EK. cbn [repeat why_iters]. rewrite !run_bind.
  destruct (at_entry C L CO _ _ _ _ _ IA) as (b & a & H & B & z & wr & A1 & A2 & A3 & A4 & A5).
  assert (E : run (why_iter C nid [] e) s = (s, inl (WErr m))).
  { unfold why_iter, sys. cbn [bindp run exec]. rewrite A1. cbn [bindp]. rewrite A5. cbn [lift bindp]. unfold Header_Get_Id.
    rewrite (proj2 (caseeq_lower _ _) LI). destruct FL as [(-> & ->)|(-> & -> & -> & ->)]; reflexivity. }
  rewrite E. reflexivity.
Qed.
Lemma has_one s n o w e t u v : in_archive C L s n o w e -> has (wr_hdr w) t u -> has (wr_hdr w) t v -> u = v.
Proof.
  intros IA H1 H2. destruct (at_entry C L CO _ _ _ _ _ IA) as (_ & _ & _ & _ & _ & _ & _ & _ & _ & HS & _). apply has_get in H1, H2; auto. congruence.
Qed.
Lemma warcinfo_says s n o w e arg nid : apart C s -> in_archive C L s n o w e -> has (wr_hdr w) "WARC-Type" (str "warcinfo") -> lower (h_id (wr_hdr w)) = lower nid ->
  good_id prefix (c_idsize C) arg nid -> (0 < c_fuel C)%nat -> says C L s arg (str "ID is warcinfo segment").
Proof.
  intros AP IA TY LI GI FU. eapply entry_says; eauto; [do 5 right; left; reflexivity|]. left. split; auto.
  pose proof IA as (_ & (_ & _ & _ & (t & HT & FL) & _) & _). rewrite (has_one _ _ _ _ _ _ _ _ IA HT TY) in FL. change (type_flag (str "warcinfo")) with 2 in FL.
  destruct FL as [(_ & ->)|(k & last & _ & _ & ->)]; [reflexivity|]. destruct (bytes_eqb k (str "1")), last; reflexivity.
Qed.
Lemma continuation_says s n o w e k arg nid : apart C s -> in_archive C L s n o w e -> has (wr_hdr w) "WARC-Type" (str "continuation") ->
  has (wr_hdr w) "WARC-Segment-Number" k -> k <> str "1" -> lower (h_id (wr_hdr w)) = lower nid ->
  good_id prefix (c_idsize C) arg nid -> (0 < c_fuel C)%nat -> says C L s arg (str "ID is continuation segment").
Proof.
  intros AP IA TY SN K1 LI GI FU. eapply entry_says; eauto; [do 6 right; left; reflexivity|]. right.
  pose proof IA as (_ & (_ & _ & _ & (t & HT & FL) & _) & _). rewrite (has_one _ _ _ _ _ _ _ _ IA HT TY) in FL. change (type_flag (str "continuation")) with 0 in FL.
  destruct FL as [(NH & _)|(k' & last & HK & _ & ->)]; [destruct SN as (f & F1 & F2 & _); destruct (NH f F1 F2)|].
  rewrite (has_one _ _ _ _ _ _ _ _ IA HK SN). rewrite (proj2 (bytes_eqb_false k (str "1")) K1). destruct last; auto.
Qed.

(* an object which is there *)
Lemma cgi_served x y r b arg nid : reach C L x ->
  (forall j p, In (j, p) (wo_procs x) -> exists a, p = Ret a) -> apart C (wo_fs x) ->
  In (JStore r, Ret (Some b)) (wo_procs x) ->
  (List.length (f_idx (wo_fs x)) <= c_fuel C)%nat -> N.of_nat (List.length (f_idx (wo_fs x))) < 2 ^ 31 - 1 ->
  good_id (c_prefix C) (c_idsize C) arg nid -> lower (c_prefix C ++ nid) = lower b ->
  steps C L x y -> new_apart C (wo_fs x) (wo_fs y) -> forall args e, written [] [o_h] [] [] args -> cgi_get e arg ->
  (forall r' b', In (JStore r', Ret (Some b')) (wo_procs x) -> lower b' = lower b -> ~ In 10 (r_mime r')) ->
  exists r' b' out, In (JStore r', Ret (Some b')) (wo_procs x) /\ lower b' = lower b /\
    run (cgi_cmd C L args e) (wo_fs y) = (wo_fs y, inl (0, out)) /\ cgi_answer e (r_mime r') (List.concat (r_data r')) out.
Proof.
  intros RX AD AP HI FU KB GI LB ST NA args e W CG NM.
  destruct (end_cgi C L CO ZO x y r b arg nid RX AD AP HI FU KB GI LB ST NA e CG NM) as (r' & b' & out & H1 & H2 & H3 & H4).
  destruct (cgi_as args e (wo_fs y) W _ _ H3) as (rr & R & ->). exists r', b', out. auto.
Qed.
End Why.
