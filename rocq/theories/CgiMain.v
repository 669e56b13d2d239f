(* Proofs about what cgi and get print. *)
From Coq Require Import String Permutation.
From Coq Require Import ZifyBool ZifyNat ZifyN.
From Verif Require Import Base BaseLemmas ListLemmas IndexModel IndexSpec IndexProofs IndexMain HeaderModel HeaderSpec HeaderProofs
  InflateSpec InflateProofs GzipModel GzipSpec GzipProofs ProgModel StoreModel StoreSpec StoreSysModel StoreWp StoreSys StoreHdr
  StoreWrite StoreCommit StoreJob StoreMain StoreGet StoreWorld StoreAgain StoreOrigin CgiModel CgiSpec.
Open Scope string_scope.
Open Scope list_scope.
Open Scope N_scope.

(** * Replies *)

Lemma cut_at (c : N) a b a' b' : ~ In c a -> ~ In c a' -> a ++ c :: b = a' ++ c :: b' -> a = a' /\ b = b'.
Proof.
  revert a'. induction a as [|x a IH]; intros [|y a'] H H' E; cbn [app] in E.
  - injection E as ->. auto.
  - injection E as -> _. destruct H'. left. auto.
  - injection E as -> _. destruct H. left. auto.
  - injection E as -> E. destruct (IH a') as (-> & ->); auto; intros X; [apply H|apply H']; right; auto.
Qed.

Lemma reply_unique out f1 b1 : forall f2 b2, reply out f1 b1 -> reply out f2 b2 -> f1 = f2 /\ b1 = b2.
Proof.
  revert out. induction f1 as [|[n v] f1 IH]; intros out [|[n' v'] f2] b2 (F1 & E1) (F2 & E2); cbn [flat_map app] in *.
  - rewrite E1 in E2. injection E2 as ->. auto.
  - inversion F2 as [|? ? (N1 & N2 & _) _]; subst. cbn [fst] in *. destruct n' as [|c n']; [destruct N1; auto|].
    cbn [app] in E2. injection E2 as <- _. destruct N2. left. auto.
  - inversion F1 as [|? ? (N1 & N2 & _) _]; subst. cbn [fst] in *. destruct n as [|c n]; [destruct N1; auto|].
    cbn [app] in E2. injection E2 as -> _. destruct N2. left. auto.
  - inversion F1 as [|? ? (_ & _ & C1 & V1) F1']; inversion F2 as [|? ? (_ & _ & C2 & V2) F2']; subst. cbn [fst snd] in *.
    rewrite <- !app_assoc in E2. change (str ": ") with [58; 32] in E2. cbn [app] in E2.
    apply cut_at in E2; [|auto|auto]. destruct E2 as (-> & E2). injection E2 as E2.
    apply cut_at in E2; [|auto|auto]. destruct E2 as (-> & E2).
    destruct (IH _ f2 b2 (conj F1' eq_refl)) as (-> & ->); [|auto]. split; [auto|]. auto.
Qed.

Lemma strstr_iff s p : strstr p s = true <-> exists u v, p = u ++ s ++ v.
Proof.
  induction p as [|c p IH]; cbn [strstr].
  - rewrite orb_false_r. split.
    + intros E. apply bytes_eqb_true in E. rewrite firstn_nil in E. subst s. exists [], []. auto.
    + intros (u & v & E). destruct u, s; try discriminate. reflexivity.
  - rewrite orb_true_iff, IH. split.
    + intros [E|(u & v & ->)]; [|exists (c :: u), v; auto]. apply bytes_eqb_true in E. exists [], (skipn (List.length s) (c :: p)).
      cbn [app]. rewrite <- E at 1. symmetry. apply firstn_skipn.
    + intros ([|x u] & v & E); cbn [app] in E.
      * left. rewrite E. rewrite firstn_app, Nat.sub_diag, firstn_all, firstn_O, app_nil_r. apply bytes_eqb_refl.
      * right. injection E as _ E. eauto.
Qed.

(** * Programs by themselves *)

Lemma run_bind {A B} (p : prog A) (k : A -> prog B) : forall s, run (bindp p k) s =
  let (s', r) := run p s in match r with inl a => run (k a) s' | inr d => (s', inr d) end.
Proof.
  induction p as [a|d|c f IH]; intros s; cbn [bindp run]; auto. destruct (exec c s) as [s' a]. apply IH.
Qed.

Lemma alone {A} (p : prog A) s (Q : A -> fs -> Prop) :
  wp (fun s1 => s1 = s) (fun _ => False) (fun a o s' => Q a s') [] s p -> exists a, run p s = (s, inl a) /\ Q a s.
Proof.
  intros X. apply (wp_run _ _ _ (f_hold s)) in X; [|auto|intros n []|auto].
  destruct (run p s) as [s' r]. destruct X as (-> & X). destruct r as [a|d]; [|contradiction].
  destruct X as (own' & H & _). eauto.
Qed.

(** * Lengths *)

Lemma content_length sha hd d : wf_header hd -> describes sha hd d -> len d < 2 ^ 63 ->
  Header_Get_Number hd (str "Content-Length") = Ok (Z.of_N (len d)).
Proof.
  intros (_ & S & _) (D & _) B. rewrite has_get in D by auto. unfold hget in D.
  rewrite (number_exact _ _ _ D) by apply dec_digits. rewrite dec_value_undec, undec_dec.
  replace (len d <? 2 ^ 63) with true by lia. auto.
Qed.

(** * Changing a header *)

Lemma set_wf hd name val : wf_header hd -> ok_name name -> clean name -> clean val -> exists hd', Header_Set hd name val = Ok hd' /\
  wf_header hd' /\ h_id hd' = h_id hd /\
  (forall m, Header_Get hd' m = if list_eq_dec N.eq_dec (lower m) (lower name) then Some val else Header_Get hd m).
Proof.
  intros (W1 & W2 & W3) ON CN CV. destruct (set_spec hd name val W2 ON) as (hd' & E & S & I & G & F). exists hd'. split; [auto|].
  split; [|split; [auto|exact G]]. split; [rewrite I; auto|]. split; [exact S|]. rewrite Forall_forall in *. intros g Hg.
  destruct (F g Hg) as [(X & _)|(-> & _ & [->|(f & Hf & ->)])]; auto.
  destruct (W3 f Hf) as (X & Y & _). auto.
Qed.

Lemma sorted_get hd n v : wf_header hd -> (has hd n v <-> Header_Get hd (str n) = Some v).
Proof. intros (_ & S & _). apply (has_get hd n v S). Qed.

Section Cgi.
Variable C : conf.
Variable L : zlib.
Hypothesis CO : conf_ok C.
Notation prefix := (c_prefix C).

Section Stored.
Variables (typ id data : bytes) (ps : list part).
Hypothesis TYP : typ = str "resource" \/ typ = str "metadata".
Hypothesis KB : N.of_nat (List.length ps) < 2 ^ 31 - 1.
Hypothesis FU : (List.length ps <= c_fuel C)%nat.
Variables (arg nid : bytes).
Hypothesis GID : good_id prefix (c_idsize C) arg nid.
Hypothesis NID : lower nid = lower id.
Variable s : fs.
Hypothesis ST : stored_as C L s typ id data ps.
Hypothesis CL : clear C L s id ps.
Hypothesis LID : len id = c_idsize C.

Lemma job_alone : exists gs, run (GetJob_New C arg) s = (s, inl (Some gs)) /\ gottens s 1 ps gs.
Proof.
  assert (V : IDX_Valid_Id prefix (c_idsize C) arg = IdOk nid) by (apply valid_iff; auto).
  unfold GetJob_New. rewrite V.
  destruct (alone (getjob_loop C (c_fuel C) nid [] nid) s (fun a s' => exists gs, a = Some gs /\ gottens s' 1 ps gs)) as (a & R & gs & -> & G); [|eauto].
  eapply wp_conseq; [|apply (walk C L CO (fun s1 => s1 = s) nid id NID LID data typ TYP ps s (c_fuel C) ST)]; auto.
  - cbn beta. tauto.
  - intros s1 ->. auto.
Qed.

Lemma iter_alone gs : gottens s 1 ps gs -> run (GetJob_Iter gs) s = (s, inl data).
Proof.
  intros G. destruct (alone (GetJob_Iter gs) s (fun d _ => d = data)) as (d & R & ->); [|auto].
  eapply wp_conseq; [|apply (bodies (fun s1 => s1 = s) ps s 1 gs G)]. cbn beta. intros d o s' (_ & _ & ->). apply ST.
Qed.

Lemma body_alone gs : gottens s 1 ps gs -> run (get_body C L false gs) s = (s, inl data).
Proof.
  intros G. destruct (alone (get_body C L false gs) s (fun d _ => d = data)) as (d & R & ->); [|auto].
  eapply wp_conseq; [|apply (body_plain C L (fun s1 => s1 = s) id data typ s s ps gs ST (rely_refl _ _) G)]. cbn beta. tauto.
Qed.

(* what the records are *)
Lemma all_parts : Forall (fun p => describes (z_sha L) (wr_hdr (p_rec p)) (wr_data (p_rec p)) /\ wf_header (wr_hdr (p_rec p)) /\ wr_data (p_rec p) <> []) ps.
Proof.
  destruct ST as ((_ & NE) & S1). rewrite Forall_forall in NE.
  assert (IA : Forall (fun p => in_archive C L s (p_silo p) (p_off p) (p_rec p) (p_ent p)) ps).
  { destruct ps as [|p [|q r]]; [constructor| |].
    - destruct S1 as (_ & IA & _). constructor; auto.
    - destruct S1 as (_ & CH). revert CH. generalize (p :: q :: r). generalize 1. clear. intros k l. revert k.
      induction l as [|p l IH]; intros k CH; [constructor|]. cbn [chain] in CH. destruct CH as ((IA & _) & CH). constructor; [auto|].
      destruct l as [|q r]; [constructor|]. destruct CH as (_ & _ & CH). eapply IH. exact CH. }
  rewrite Forall_forall in *. intros p Hp. destruct (IA p Hp) as (_ & _ & b & wr & a & r & z & _ & _ & _ & (H & B & _ & DS & _ & _ & W & _)). auto.
Qed.

Lemma header_first gs : gottens s 1 ps gs -> exists p r g gr, ps = p :: r /\ gs = g :: gr /\ g_hdr g = wr_hdr (p_rec p) /\
  GetJob_Header true gs = Ok (wr_hdr (p_rec p)) /\ GetJob_IsSegmented gs = match r with [] => false | _ => true end.
Proof.
  intros G. destruct ps as [|p r]; [destruct ST as (_ & [])|]. destruct gs as [|g gr]; [destruct G|]. cbn [gottens] in G.
  destruct G as ((_ & E & _) & GR). exists p, r, g, gr. split; [auto|]. split; [auto|]. split; [auto|]. cbn [GetJob_Header GetJob_IsSegmented].
  rewrite E. split; [auto|]. destruct r, gr; cbn [gottens] in GR; tauto.
Qed.

(** * Lengths *)

Lemma total_plain gs : gottens s 1 ps gs -> len data < 2 ^ 63 -> GetJob_TotalLength false gs = Ok (Z.of_N (len data)).
Proof.
  intros G B. pose proof all_parts as AP. destruct ST as ((ED & _) & _). rewrite <- ED in *. clear ED ST CL KB FU. unfold GetJob_TotalLength.
  assert (X : forall k l gs sum, gottens s k l gs -> (0 <= sum)%Z ->
    Forall (fun p => describes (z_sha L) (wr_hdr (p_rec p)) (wr_data (p_rec p)) /\ wf_header (wr_hdr (p_rec p)) /\ wr_data (p_rec p) <> []) l ->
    (sum + Z.of_N (len (List.concat (map (fun p => wr_data (p_rec p)) l))) < 2 ^ 63)%Z ->
    total_loop false gs sum = Ok (sum + Z.of_N (len (List.concat (map (fun p => wr_data (p_rec p)) l))))%Z).
  { clear. intros k l. revert k. induction l as [|p l IH]; intros k [|g gs] sum G S F B; cbn [gottens] in G; try contradiction; cbn [total_loop map List.concat] in *.
    - f_equal. rewrite len_nil. lia.
    - inversion F as [|? ? (D & W & NE) F']; subst. destruct G as ((_ & E & _) & GR). rewrite len_app in *.
      assert (0 < len (wr_data (p_rec p))) by (destruct (wr_data (p_rec p)); [congruence|rewrite len_cons; lia]).
      rewrite E, (content_length _ _ _ W D) by lia. cbn [bind]. unfold guard. replace (0 <? Z.of_N (len (wr_data (p_rec p))))%Z with true by lia. cbn [bind].
      replace (2 ^ 63 <=? _)%Z with false by lia. rewrite (IH _ _ _ GR); [|lia|auto|lia]. f_equal. lia. }
  rewrite (X 1 ps gs 0%Z G); [f_equal; lia|lia|auto|lia].
Qed.

(* one segment, compressed *)
Lemma one_gz p g : ps = [p] -> gotten s p 1 g -> exists B, GetJob_TotalLength true [g] = Ok (Z.of_N (len B)) /\
  run (GetJob_Iter_gz L [g]) s = (s, inl B) /\ gunzip B = Some (data, []).
Proof.
  intros EP G. destruct ST as ((ED & _) & _). rewrite EP in ED. cbn [map List.concat] in ED. rewrite app_nil_r in ED.
  destruct G as (G1 & _ & _ & _ & _ & a & H & B & z & b & wr & F & EB & (AA & GB & _) & O & LB). exists B.
  pose proof (aa_len B AA) as L24. assert (L63 : len B < 2 ^ 63) by (destruct AA as (? & ? & _ & ? & _); auto).
  split; [|split; [|rewrite GB, ED; auto]].
  - unfold GetJob_TotalLength. cbn [total_loop bind]. rewrite LB. unfold guard. replace (0 <? Z.of_N (len B))%Z with true by lia. cbn [bind].
    replace (2 ^ 63 <=? _)%Z with false by lia. f_equal.
  - unfold GetJob_Iter_gz. cbn [gz_pieces]. cbn [sys bindp run exec]. rewrite G1, F. unfold Rsilo_ReadGZChunk. rewrite O, LB, N2Z.id.
    replace (file_read b (len a + len H) (len B)) with B.
    + assert (K : (0 < N.to_nat 131072)%nat) by lia. destruct ((len B =? len B) && negb (len B mod 2 ^ 32 =? 0));
        cbn [bindp run]; rewrite ?app_nil_r, concat_chunks; auto.
    + subst b. unfold file_read. rewrite (app_assoc a H), <- len_app, skipn_len. unfold len. rewrite Nat2N.id. symmetry. apply firstn_app_len.
Qed.

(** * cgi *)

Lemma cgi_alone e mime : cgi_get e arg -> len data < 2 ^ 63 -> ~ In 10 mime ->
  match ps with p :: _ => has (wr_hdr (p_rec p)) "Content-Type" mime | [] => False end ->
  exists out, run (main_cgi C L e) s = (s, inl (CgiPage out)) /\ cgi_answer e mime data out.
Proof.
  intros (E1 & E2 & path & E3 & PI) LD LM CT. destruct job_alone as (gs & RJ & G).
  destruct (header_first gs G) as (p & r & g & gr & EP & EG & EH & GH & GS).
  pose proof all_parts as AP. rewrite EP in CT, AP. inversion AP as [|? ? (_ & (_ & SO & _) & _) _]; subst x l.
  rewrite has_get in CT by exact SO. unfold hget in CT.
  set (want := match env_accept e with Some p => strstr p (str "gzip") | None => false end).
  set (gz := if GetJob_IsSegmented gs then false else want).
  assert (W : gz = true -> mentions_gzip e).
  { unfold gz, want. destruct (GetJob_IsSegmented gs); [discriminate|]. destruct (env_accept e) as [a|] eqn:EA; [|discriminate].
    intros X. apply strstr_iff in X. destruct X as (u & v & ->). exists u, v. exact EA. }
  assert (K : exists body, GetJob_TotalLength gz gs = Ok (Z.of_N (len body)) /\
    run (if gz then GetJob_Iter_gz L gs else GetJob_Iter gs) s = (s, inl body) /\ (if gz then gunzip body = Some (data, []) else body = data)).
  { destruct gz eqn:EZ.
    - unfold gz in EZ. rewrite GS in EZ. destruct r; [|discriminate]. rewrite EP, EG in G. destruct gr; [|cbn [gottens] in G; tauto].
      destruct G as (G & _). rewrite EG. apply (one_gz p g); auto.
    - exists data. split; [apply total_plain; auto|]. split; [apply iter_alone; auto|auto]. }
  destruct K as (body & KL & KR & KB').
  assert (ID : match path with c :: r => if c =? 47 then r else path | [] => path end = arg).
  { destruct PI as [->|(-> & NS)]; [reflexivity|]. destruct arg as [|c r0]; auto. destruct (c =? 47) eqn:E; auto.
    apply N.eqb_eq in E. subst c. destruct (NS r0 eq_refl). }
  unfold main_cgi. rewrite E1, E2, E3. cbn [env_is]. rewrite !bytes_eqb_refl. cbn [negb]. rewrite ID. fold want.
  rewrite run_bind, RJ. fold gz. rewrite GH. cbn [lift bindp]. rewrite CT. rewrite KL. cbn [lift bindp]. rewrite run_bind, KR. cbn [run].
  eexists. split; [reflexivity|]. exists gz, body. split; [|destruct gz; auto]. rewrite N2Z.id. split.
  - assert (RF : forall n v, reply_field (str n, v) <-> (str n <> [] /\ ~ In 10 (str n) /\ ~ In 58 (str n) /\ ~ In 10 v)) by (intros; reflexivity).
    assert (DD : ~ In 10 (dec (len body))).
    { intros X. pose proof (dec_digits (len body)) as D. rewrite Forall_forall in D. specialize (D _ X). discriminate D. }
    assert (N1 : forall n v, existsb (fun c => (c =? 10) || (c =? 58)) (str n) = false -> str n <> [] -> ~ In 10 v -> reply_field (str n, v)).
    { intros n v X Y Z. split; [auto|]. cbn [fst snd]. split; [|split; [|auto]]; intros I; rewrite <- not_true_iff_false in X; apply X; apply existsb_exists; [exists 10|exists 58]; auto. }
    destruct gz; repeat (apply Forall_cons || apply Forall_nil || (apply Forall_app; split)); apply N1; try reflexivity; try discriminate; auto;
      intros X; repeat (destruct X as [X|X]; [discriminate|]); destruct X.
  - destruct gz; cbn [app flat_map fst snd]; rewrite <- !app_assoc; reflexivity.
Qed.

(** * Headers *)

Lemma header_last gs : gottens s 1 ps gs -> forall p q r, ps = p :: q :: r ->
  exists hd, GetJob_Header false gs = Ok hd /\ Header_Get hd (str "WARC-Segment-Total-Length") = Some (dec (len data)).
Proof.
  intros G p q r EP. pose proof all_parts as AP. destruct ST as (_ & S1). rewrite EP in S1. destruct S1 as (_ & CH). rewrite <- EP in CH.
  assert (NE : ps <> []) by (rewrite EP; discriminate). clear EP. revert AP CH G NE. generalize 1. clear.
  revert gs. induction ps as [|p l IH]; intros gs k AP CH G NE; [congruence|]. destruct gs as [|g gs]; [destruct G|].
  cbn [gottens] in G. destruct G as ((_ & E & _) & GR). inversion AP as [|? ? (_ & (_ & SO & _) & _) AP']; subst.
  cbn [chain] in CH. destruct CH as (_ & CH). destruct l as [|q l].
  - destruct gs; [|destruct GR]. rewrite has_get in CH by exact SO. exists (wr_hdr (p_rec p)). cbn [GetJob_Header rev app]. rewrite E. auto.
  - destruct CH as (_ & _ & CH). destruct (IH gs (k + 1) AP' CH GR ltac:(discriminate)) as (hd & E1 & E2). exists hd. split; [|auto].
    unfold GetJob_Header in *. cbn [rev]. destruct (rev gs) as [|x y]; [discriminate|]. exact E1.
Qed.

(* the header printed is the first one, with length and digest of the object *)
Lemma headers_alone gs : zlib_ok L -> gottens s 1 ps gs -> exists p r hd, ps = p :: r /\ GetJob_Headers prefix gs = Ok (warc_text prefix hd) /\
  h_id hd = id /\ wf_header hd /\ describes (z_sha L) hd data /\ hasnt hd "WARC-Segment-Total-Length" /\ has hd "WARC-Type" typ /\
  forall n v, lower (str n) <> lower (str "Content-Length") -> lower (str n) <> lower (str "WARC-Block-Digest") ->
    (has hd n v <-> has (wr_hdr (p_rec p)) n v).
Proof.
  intros ZO G. pose proof all_parts as AP. destruct (header_first gs G) as (p & r & g & gr & EP & EG & EH & GH & GS).
  pose proof ST as ((ED & _) & S1). rewrite EP in AP. inversion AP as [|? ? (DS & W & _) _]; subst x l.
  exists p, r. destruct r as [|q r].
  - rewrite EP in S1. destruct S1 as (HT & _ & EI & _ & _ & H3). exists (wr_hdr (p_rec p)).
    rewrite EP in ED. cbn [map List.concat] in ED. rewrite app_nil_r in ED. rewrite ED in DS.
    split; [auto|]. split; [|split; [exact EI|split; [auto|split; [auto|split; [auto|split; [auto|intros; tauto]]]]]].
    unfold GetJob_Headers. rewrite GH. cbn [bind]. rewrite GS. rewrite EG in *. destruct gr; [|discriminate GS].
    cbn [GetJob_Header rev app bind negb]. rewrite ser_text. reflexivity.
  - destruct (header_last gs G p q r EP) as (hl & HL & TL). rewrite EP in S1. destruct S1 as (HT & ((_ & _ & PK) & HN & _)).
    change (1 =? 1) with true in PK. destruct PK as (EI & PD).
    destruct (set_wf (wr_hdr (p_rec p)) (str "Content-Length") (dec (len data)) W) as (h1 & E1 & W1 & I1 & G1).
    { split; [|discriminate]. intros X. repeat (destruct X as [X|X]; [discriminate|]). destruct X. }
    { split; intros X; repeat (destruct X as [X|X]; [discriminate|]); destruct X. }
    { split; intros X; pose proof (dec_digits (len data)) as D; rewrite Forall_forall in D; specialize (D _ X); discriminate D. }
    destruct (set_wf h1 (str "WARC-Block-Digest") (str "sha256:" ++ z_sha L data) W1) as (h2 & E2 & W2 & I2 & G2).
    { split; [|discriminate]. intros X. repeat (destruct X as [X|X]; [discriminate|]). destruct X. }
    { split; intros X; repeat (destruct X as [X|X]; [discriminate|]); destruct X. }
    { destruct (zo_sha L ZO data) as (_ & D). rewrite Forall_forall in D.
      split; intros X; apply in_app_iff in X; destruct X as [X|X];
        try (repeat (destruct X as [X|X]; [discriminate|]); destruct X); destruct (D _ X) as (D1 & _); discriminate D1. }
    exists h2. split; [auto|]. split.
    { unfold GetJob_Headers. rewrite GH, HL. cbn [bind]. rewrite GS. cbn [negb]. rewrite clone_eq, TL. cbn [there bind]. rewrite E1. cbn [bind].
      apply (sorted_get _ _ _ W) in PD. rewrite PD. cbn [there bind]. rewrite E2. cbn [bind]. rewrite ser_text. reflexivity. }
    split; [rewrite I2, I1; exact EI|]. split; [exact W2|]. split; [split|].
    + apply (sorted_get _ _ _ W2). rewrite G2, G1. reflexivity.
    + apply (sorted_get _ _ _ W2). rewrite G2. reflexivity.
    + assert (O : forall n, lower (str n) <> lower (str "Content-Length") -> lower (str n) <> lower (str "WARC-Block-Digest") ->
        Header_Get h2 (str n) = Header_Get (wr_hdr (p_rec p)) (str n)).
      { intros n N1 N2. rewrite G2. destruct (list_eq_dec N.eq_dec (lower (str n)) (lower (str "WARC-Block-Digest"))); [contradiction|].
        rewrite G1. destruct (list_eq_dec N.eq_dec (lower (str n)) (lower (str "Content-Length"))); [contradiction|]. auto. }
      split; [apply hasnt_get; unfold hget; rewrite O by discriminate; apply hasnt_get in HN; exact HN|].
      split; [apply (sorted_get _ _ _ W2); rewrite O by discriminate; apply (sorted_get _ _ _ W); auto|].
      intros n v N1 N2. rewrite (sorted_get _ _ _ W2), (sorted_get _ _ _ W), O by auto. tauto.
Qed.

Lemma out_alone quiet hdr_only : zlib_ok L -> exists p r hd, ps = p :: r /\
  run (main_get_out C L false quiet hdr_only arg) s =
    (s, inl (Some (if quiet then [] else warc_text prefix hd, if hdr_only then [] else data))) /\
  h_id hd = id /\ wf_header hd /\ describes (z_sha L) hd data /\ hasnt hd "WARC-Segment-Total-Length" /\ has hd "WARC-Type" typ /\
  forall n v, lower (str n) <> lower (str "Content-Length") -> lower (str n) <> lower (str "WARC-Block-Digest") ->
    (has hd n v <-> has (wr_hdr (p_rec p)) n v).
Proof.
  intros ZO. destruct job_alone as (gs & RJ & G). destruct (headers_alone gs ZO G) as (p & r & hd & EP & GH & R).
  exists p, r, hd. split; [auto|]. split; [|auto]. unfold main_get_out. rewrite run_bind, RJ. rewrite GH. cbn [lift].
  rewrite run_bind. replace (run (if quiet then Ret [] else Ret (warc_text prefix hd)) s) with (s, @inl bytes death (if quiet then [] else warc_text prefix hd))
    by (destruct quiet; reflexivity).
  rewrite run_bind.
  destruct hdr_only; [reflexivity|]. pose proof (body_alone gs G) as Z. unfold bytes in *. rewrite Z.
  reflexivity.
Qed.
End Stored.

(** * After commands have come to their end *)

Hypothesis ZO : zlib_ok L.

Lemma reach_jobs x : reach C L x -> forall r p, In (JStore r, p) (wo_procs x) -> request_ok r.
Proof.
  intros (s0 & E & S). remember (mkWorld s0 []) as w eqn:EW. induction S as [a|a y z S IH [l ST]]; [subst; intros r p []|].
  specialize (IH EW). intros r p HI.
  assert (K : forall s ps1 ps2 (j : job) (q q' : prog (option bytes)), y = mkWorld s (ps1 ++ (j, q) :: ps2) ->
    In (JStore r, p) (ps1 ++ (j, q') :: ps2) -> request_ok r).
  { intros s ps1 ps2 j q q' -> I. cbn [wo_procs] in IH. apply in_app_iff in I. destruct I as [I|[I|I]].
    - apply (IH r p). apply in_app_iff. auto.
    - injection I as -> _. apply (IH r q). apply in_app_iff. right. left. auto.
    - apply (IH r p). apply in_app_iff. right. right. auto. }
  inversion ST; subst y z; cbn [wo_procs] in *; try (eapply K; [reflexivity|exact HI]); try (apply (IH r p HI)).
  apply in_app_iff in HI. destruct HI as [HI|[HI|[]]]; [apply (IH r p HI)|]. injection HI as -> _. exact H.
Qed.

Section Ended.
Variables (x y : world) (r : request) (b arg nid : bytes).
Hypothesis RX : reach C L x.
Hypothesis AD : forall j p, In (j, p) (wo_procs x) -> exists a, p = Ret a.
Hypothesis AP : apart C (wo_fs x).
Hypothesis HI : In (JStore r, Ret (Some b)) (wo_procs x).
Hypothesis FU : (List.length (f_idx (wo_fs x)) <= c_fuel C)%nat.
Hypothesis KB : N.of_nat (List.length (f_idx (wo_fs x))) < 2 ^ 31 - 1.
Hypothesis GI : good_id prefix (c_idsize C) arg nid.
Hypothesis LB : lower (prefix ++ nid) = lower b.
Hypothesis SY : steps C L x y.
Hypothesis NA : new_apart C (wo_fs x) (wo_fs y).

Lemma end_stored : exists r' id ps, In (JStore r', Ret (Some (prefix ++ id))) (wo_procs x) /\ lower (prefix ++ id) = lower b /\
  lower nid = lower id /\ len id = c_idsize C /\ stored_as C L (wo_fs y) (req_type r') id (List.concat (r_data r')) ps /\ clear C L (wo_fs y) id ps /\
  N.of_nat (List.length ps) < 2 ^ 31 - 1 /\ (List.length ps <= c_fuel C)%nat /\ match ps with p :: _ => described C r' p | [] => False end.
Proof.
  destruct (stored_end C L CO ZO x r b RX AD AP HI) as (r' & id & id' & ps & -> & LI & _ & _ & HI' & LE & LI' & ST & CL & BD & DS).
  rewrite !lower_app in LB. apply app_inv_head in LB. pose proof (reach_grow C L CO ZO x y RX SY) as RG.
  exists r', id', ps. split; [auto|]. split; [rewrite !lower_app; congruence|]. split; [congruence|]. split; [auto|].
  split; [eapply stored_rely; eauto|]. split; [eapply clear_later; eauto|]. split; [lia|]. split; [lia|auto].
Qed.

Theorem end_cgi e : cgi_get e arg ->
  (forall r' b', In (JStore r', Ret (Some b')) (wo_procs x) -> lower b' = lower b -> ~ In 10 (r_mime r')) ->
  exists r' b' out, In (JStore r', Ret (Some b')) (wo_procs x) /\ lower b' = lower b /\
    run (main_cgi C L e) (wo_fs y) = (wo_fs y, inl (CgiPage out)) /\ cgi_answer e (r_mime r') (List.concat (r_data r')) out.
Proof.
  intros CG LF. destruct end_stored as (r' & id & ps & HI' & LE & NID & LI & ST & CL & B1 & B2 & DS).
  pose proof (reach_jobs x RX r' _ HI') as RO.
  destruct (cgi_alone (req_type r') id _ ps (req_type_cases r') B1 B2 arg nid GI NID (wo_fs y) ST CL LI e (r_mime r') CG) as (out & R & A).
  - pose proof (ro_size _ RO). lia.
  - eapply LF; eauto.
  - destruct ps as [|p l]; [destruct DS|]. apply DS.
  - exists r', (prefix ++ id), out. auto.
Qed.

Theorem end_headers quiet hdr_only : exists r' b' hd, In (JStore r', Ret (Some b')) (wo_procs x) /\ lower b' = lower b /\
  run (main_get_out C L false quiet hdr_only arg) (wo_fs y) =
    (wo_fs y, inl (Some (if quiet then [] else warc_text prefix hd, if hdr_only then [] else List.concat (r_data r')))) /\
  tells C (z_sha L) r' b' hd.
Proof.
  destruct end_stored as (r' & id & ps & HI' & LE & NID & LI & ST & CL & B1 & B2 & DS).
  destruct (out_alone (req_type r') id _ ps (req_type_cases r') B1 B2 arg nid GI NID (wo_fs y) ST CL LI quiet hdr_only ZO)
    as (p & l & hd & EP & R & I & W & D & H1 & H2 & H3).
  exists r', (prefix ++ id), hd. split; [auto|]. split; [auto|]. split; [exact R|]. rewrite EP in DS. destruct DS as (D1 & D2).
  split; [rewrite I; auto|]. split; [auto|]. split; [auto|]. split; [auto|]. split; [apply H3; [discriminate|discriminate|auto]|].
  split; [intros M; apply H3; [discriminate|discriminate|auto]|auto].
Qed.
End Ended.
End Cgi.
