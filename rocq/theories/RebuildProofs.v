(* Rebuilding: the pieces of a header, and what becomes of it *)
From Coq Require Import String Sorting.Sorted.
From Coq Require Import ZifyBool ZifyNat ZifyN.
From Verif Require Import Base BaseLemmas ListLemmas IndexModel HeaderModel HeaderSpec HeaderProofs
  InflateSpec InflateProofs GzipModel GzipSpec GzipProofs ProgModel StoreModel StoreSpec StoreHdr StoreGet
  RebuildModel RebuildSpec.
Open Scope string_scope.
Open Scope list_scope.
Open Scope N_scope.

(** * Bytes *)

Lemma inf_blocks_bytes n : forall w b w' b', is_bytes w -> inf_blocks n w b = Some (w', b') -> is_bytes w'.
Proof.
  induction n as [|n IH]; intros w b w' b' W H; [discriminate|]. cbn [inf_blocks] in H.
  destruct (inf_block w b) as [[[fin w1] b1]|] eqn:E; [|discriminate]. apply inf_block_bytes in E; [|auto].
  destruct fin; [injection H as -> ->; auto|eauto].
Qed.

Lemma gunzip_bytes f d r : gunzip f = Some (d, r) -> is_bytes d.
Proof.
  unfold gunzip. destruct (gz_skip_head f) as [q|]; [|discriminate].
  destruct (inf_blocks _ [] (to_bits q)) as [[w b]|] eqn:E; [|discriminate].
  apply inf_blocks_bytes in E; [|constructor]. destruct (_ || _); [discriminate|]. intros H.
  assert (X : rev w = d) by congruence. rewrite <- X. apply Forall_rev. exact E.
Qed.

(** * The end of a header *)

Lemma crlf_four l : forall j, crlfcrlf l = Some j -> 4 <= j.
Proof.
  induction l as [|y l IH]; intros j J; [discriminate|]. cbn [crlfcrlf] in J.
  destruct (bytes_eqb _ _); [injection J as <-; lia|]. destruct (crlfcrlf l) as [i|]; [|discriminate].
  injection J as <-. specialize (IH i eq_refl). lia.
Qed.

Lemma crlf_mono u : forall v n, crlfcrlf u = Some n -> crlfcrlf (u ++ v) = Some n /\ n <= len u.
Proof.
  induction u as [|c u IH]; intros v n H; [discriminate|]. cbn [crlfcrlf app] in *. change (c :: u ++ v) with ((c :: u) ++ v).
  destruct (bytes_eqb (firstn 4 (c :: u)) [13; 10; 13; 10]) eqn:E.
  - apply bytes_eqb_true in E. injection H as <-.
    assert (F : firstn 4 ((c :: u) ++ v) = [13; 10; 13; 10]).
    { rewrite firstn_app. rewrite E. replace (4 - List.length (c :: u))%nat with 0%nat; [reflexivity|].
      apply (f_equal (@List.length N)) in E. rewrite firstn_length in E. change (List.length [13; 10; 13; 10]) with 4%nat in E. lia. }
    rewrite F. split; [reflexivity|]. apply (f_equal (@List.length N)) in E. rewrite firstn_length in E.
    change (List.length [13; 10; 13; 10]) with 4%nat in E. unfold len. lia.
  - destruct (crlfcrlf u) as [k|] eqn:U; [|discriminate]. injection H as <-.
    destruct (IH v k eq_refl) as (IH1 & IH2). rewrite IH1.
    destruct (bytes_eqb (firstn 4 ((c :: u) ++ v)) [13; 10; 13; 10]) eqn:E2.
    + exfalso. apply bytes_eqb_true in E2.
      assert (X : crlfcrlf ((c :: u) ++ v) = Some 4).
      { cbn [crlfcrlf app]. change (c :: u ++ v) with ((c :: u) ++ v). rewrite E2. reflexivity. }
      assert (3 <= len u) by (pose proof (crlf_four _ _ U); lia).
      assert (firstn 4 (c :: u) = [13; 10; 13; 10]).
      { rewrite <- E2. rewrite firstn_app. replace (4 - List.length (c :: u))%nat with 0%nat; [rewrite app_nil_r; reflexivity|].
        unfold len in *. cbn [List.length]. lia. }
      rewrite H0 in E. discriminate.
    + split; [reflexivity|]. rewrite len_cons. lia.
Qed.

Lemma crlf_line l s : ~ In 13 l ->
  crlfcrlf (l ++ s) = match crlfcrlf s with Some n => Some (n + len l) | None => None end.
Proof.
  induction l as [|c l IH]; intros H.
  - cbn [app]. destruct (crlfcrlf s); [|reflexivity]. f_equal. unfold len. cbn. lia.
  - cbn [app crlfcrlf]. rewrite IH by (intros X; apply H; right; exact X).
    replace (bytes_eqb (firstn 4 (c :: l ++ s)) [13; 10; 13; 10]) with false.
    + destruct (crlfcrlf s); [|reflexivity]. f_equal. rewrite len_cons. lia.
    + symmetry. destruct (bytes_eqb _ _) eqn:E; [|reflexivity]. apply bytes_eqb_true in E. injection E as -> _.
      exfalso. apply H. left. reflexivity.
Qed.

Lemma crlf_more c s : c <> 13 ->
  crlfcrlf ([13; 10] ++ c :: s) = match crlfcrlf (c :: s) with Some n => Some (n + 2) | None => None end.
Proof.
  intros H. change ([13; 10] ++ c :: s) with (13 :: 10 :: c :: s). remember (c :: s) as t. cbn [crlfcrlf].
  replace (bytes_eqb (firstn 4 (13 :: 10 :: t)) [13; 10; 13; 10]) with false.
  - replace (bytes_eqb (firstn 4 (10 :: t)) [13; 10; 13; 10]) with false by reflexivity.
    destruct (crlfcrlf t); [|reflexivity]. f_equal. lia.
  - subst t. symmetry. destruct (bytes_eqb _ _) eqn:E; [|reflexivity]. apply bytes_eqb_true in E. injection E as X _. congruence.
Qed.

Lemma crlf_lines ls : Forall (fun l => l <> [] /\ ~ In 13 l) ls -> ls <> [] ->
  crlfcrlf (List.concat (map (fun l => l ++ [13; 10]) ls) ++ [13; 10]) =
  Some (len (List.concat (map (fun l => l ++ [13; 10]) ls) ++ [13; 10])).
Proof.
  induction ls as [|l ls IH]; intros F N; [congruence|]. clear N. inversion F as [|? ? (A & B) F']; subst.
  cbn [map List.concat]. rewrite <- !app_assoc. rewrite crlf_line by exact B.
  destruct ls as [|l2 ls].
  - cbn [map List.concat app]. change (crlfcrlf [13; 10; 13; 10]) with (Some 4). rewrite len_app.
    change (len [13; 10; 13; 10]) with 4. f_equal. lia.
  - specialize (IH F' ltac:(discriminate)). inversion F' as [|? ? (A2 & B2) F2]; subst.
    destruct l2 as [|c l2]; [congruence|]. revert IH.
    set (t := List.concat (map (fun l0 => l0 ++ [13; 10]) ((c :: l2) :: ls)) ++ [13; 10]).
    assert (T : exists t', t = c :: t') by (eexists; reflexivity). clearbody t. destruct T as (t' & ->). intros IH.
    rewrite crlf_more; [|intros ->; apply B2; left; reflexivity]. rewrite IH. rewrite !len_app. change (len [13; 10]) with 2. f_equal. lia.
Qed.

Lemma text_end prefix hd : clean prefix -> wf_header hd ->
  crlfcrlf (warc_text prefix hd) = Some (len (warc_text prefix hd)).
Proof.
  intros (_ & P) (HX & _ & F). apply hex_id in HX. destruct HX as (((((_ & I) & _) & _) & _) & _).
  set (ls := str "WARC/1.1" :: (str "WARC-Record-ID: <" ++ prefix ++ h_id hd ++ str ">") ::
             map (fun f => hf_name f ++ str ": " ++ hf_val f) (h_fields hd)).
  assert (E : warc_text prefix hd = List.concat (map (fun l => l ++ [13; 10]) ls) ++ [13; 10]).
  { unfold warc_text, ls. cbn [map List.concat]. rewrite <- !app_assoc. repeat f_equal.
    rewrite flat_map_concat_map, map_map. f_equal. apply map_ext. intros f. rewrite <- !app_assoc. reflexivity. }
  rewrite E. apply crlf_lines; [|discriminate]. unfold ls.
  assert (K : forall s, forallb (fun c => negb (c =? 13)) (str s) = true -> ~ In 13 (str s)).
  { intros s X Y. rewrite forallb_forall in X. apply X in Y. discriminate. }
  constructor; [split; [discriminate|apply K; reflexivity]|]. constructor.
  - split; [discriminate|]. rewrite !in_app_iff. intros [X|[X|[X|X]]]; auto; revert X; apply K; reflexivity.
  - apply Forall_forall. intros l X. apply in_map_iff in X. destruct X as (f & <- & X). rewrite Forall_forall in F.
    destruct (F f X) as (_ & (_ & F1) & (_ & F2)). split.
    + intros Y. apply app_eq_nil in Y. destruct Y as (_ & Y). discriminate.
    + rewrite !in_app_iff. intros [Y|[Y|Y]]; auto. revert Y. apply K. reflexivity.
Qed.

Lemma cstr_part a b : ~ In 0 (a ++ b) -> cstr a = a.
Proof. intros H. apply cstr_clean. intros X. apply H. apply in_app_iff. auto. Qed.

Lemma text_part prefix hd a b : clean prefix -> wf_header hd -> a ++ b = warc_text prefix hd -> b <> [] ->
  crlfcrlf (cstr a) = None.
Proof.
  intros P W E N. pose proof (text_end prefix hd P W) as T.
  rewrite (cstr_part a b).
  - destruct (crlfcrlf a) as [n|] eqn:X; [|reflexivity]. exfalso. destruct (crlf_mono a b n X) as (Y & Z).
    rewrite E, T in Y. assert (n = len a + len b) by (rewrite <- len_app, E; congruence).
    destruct b; [congruence|]. rewrite len_cons in *. lia.
  - rewrite E. rewrite <- ser_text. destruct W as (W1 & _ & W3). apply hex_id in W1. destruct W1 as (((W1 & _) & _) & _).
    apply ser_nonul; auto. eapply Forall_impl; [|exact W3]. intros f (_ & A & B). auto.
Qed.

(** * What becomes of a header *)

Lemma text_good prefix hd : wf_header hd -> is_bytes (warc_text prefix hd) -> hgood hd /\ idgood (h_id hd).
Proof.
  intros (H1 & H2 & H3) B. split; [|apply hex_id; exact H1]. split; [exact H2|]. unfold warc_text in B.
  rewrite flat_map_concat_map in B. unfold is_bytes in B. rewrite !Forall_app in B. destruct B as (_ & _ & _ & _ & _ & _ & _ & B & _).
  apply Forall_forall. intros f I. rewrite Forall_forall in H3. destruct (H3 f I) as (F1 & F2 & F3).
  rewrite Forall_forall in B.
  assert (X : Forall (fun x => x < 256) (hf_name f ++ str ": " ++ hf_val f ++ [13; 10])).
  { apply Forall_forall. intros x Y. apply B. apply in_concat. eexists. split; [|exact Y]. apply in_map_iff. exists f. auto. }
  rewrite !Forall_app in X. destruct X as (X1 & _ & X2 & _). repeat split; try tauto; try apply F1; try apply F2; try apply F3; auto.
Qed.

Lemma del_good prefix hd n : hgood hd -> settable (str n) = true ->
  exists hd', Header_Delete hd (str n) = Ok hd' /\ hgood hd' /\ h_id hd' = h_id hd /\ hlen prefix hd' <= hlen prefix hd /\
    (forall f, In f (h_fields hd') <-> In f (h_fields hd) /\ ~ named_as n f) /\ Header_Delete hd' (str n) = Ok hd'.
Proof.
  intros (G1 & G2) S. unfold Header_Delete. rewrite S. cbn [guard bind]. eexists. split; [reflexivity|]. cbn [h_fields h_id].
  split; [|split; [|split; [|split]]].
  - split; [apply hsorted_filter; exact G1|]. apply Forall_forall. intros f I. apply filter_In in I. rewrite Forall_forall in G2.
    apply G2. tauto.
  - reflexivity.
  - rewrite !hlen_eq. cbn [h_id h_fields]. assert (X : forall p l, fsum (filter p l) <= fsum l); [|pose proof (X (fun f => negb (caseeq (str n) (hf_name f))) (h_fields hd)); lia].
    intros p l. induction l as [|f l IH]; [reflexivity|]. cbn [filter]. unfold fsum in *. destruct (p f); cbn [map fold_right]; lia.
  - intros f. rewrite filter_In, negb_true_iff. unfold named_as. split.
    + intros (A & B). split; [exact A|]. apply caseeq_lower_f in B. congruence.
    + intros (A & B). split; [exact A|]. apply caseeq_lower_f. congruence.
  - f_equal. f_equal. induction (h_fields hd) as [|f l IH]; [reflexivity|]. cbn [filter].
    apply StronglySorted_inv in G1. inversion G2; subst.
    destruct (caseeq (str n) (hf_name f)) eqn:E; cbn [negb filter]; [|rewrite E; cbn [negb]; f_equal]; apply IH; tauto.
Qed.

Lemma strip_good prefix hd : hgood hd -> exists h1 h2, Header_Delete hd (str "Content-Length-GZIP") = Ok h1 /\
  Header_Delete h1 (str "z") = Ok h2 /\ hgood h2 /\ stripped hd h2 /\ hlen prefix h2 <= hlen prefix hd.
Proof.
  intros G. destruct (del_good prefix hd "Content-Length-GZIP" G eq_refl) as (h1 & E1 & G1 & I1 & L1 & F1 & _).
  destruct (del_good prefix h1 "z" G1 eq_refl) as (h2 & E2 & G2 & I2 & L2 & F2 & _).
  exists h1, h2. split; [exact E1|]. split; [exact E2|]. split; [exact G2|]. split; [|lia]. split; [congruence|].
  intros f. rewrite F2, F1. unfold dropped. tauto.
Qed.

Lemma digest_name f : named_as "WARC-Record-Digest" f <-> named_as "WARC-record-digest" f.
Proof. unfold named_as. reflexivity. Qed.
Lemma block_name : lower (str "WARC-Block-digest") = lower (str "WARC-Block-Digest").
Proof. reflexivity. Qed.

Lemma get_digest hd : Header_Get hd (str "WARC-record-digest") = hget hd "WARC-Record-Digest".
Proof.
  unfold hget, Header_Get. induction (h_fields hd) as [|f l IH]; [reflexivity|]. cbn [get_field]. rewrite IH.
  replace (caseeq (str "WARC-record-digest") (hf_name f)) with (caseeq (str "WARC-Record-Digest") (hf_name f)); [reflexivity|].
  destruct (caseeq (str "WARC-record-digest") (hf_name f)) eqn:E.
  - apply caseeq_lower in E. apply caseeq_lower. rewrite <- E. reflexivity.
  - apply caseeq_lower_f in E. apply caseeq_lower_f. intros X. apply E. rewrite <- X. reflexivity.
Qed.

Lemma mend_good prefix n dig hd h1 : 16 <= n <= 64 -> len dig = 64 -> Forall (fun c => is_hex c = true) dig ->
  hgood h1 -> stripped hd h1 ->
  exists h2 h3 h4, Header_Delete h1 (str "WARC-record-digest") = Ok h2 /\ Header_Delete h2 (str "WARC-record-digest") = Ok h2 /\
    Header_Set h2 (str "WARC-Block-digest") (str "sha256:" ++ dig) = Ok h3 /\ Header_Set_Id n h3 dig = Ok h4 /\
    hgood h4 /\ idgood (h_id h4) /\ mended n dig hd h4 /\ hlen prefix h4 <= hlen prefix h1 + 200.
Proof.
  intros Hn LD HD G1 (I1 & S1).
  destruct (del_good prefix h1 "WARC-record-digest" G1 eq_refl) as (h2 & E2 & G2 & I2 & L2 & F2 & D2).
  destruct (hex_id dig HD) as (HI & HG).
  assert (GV : goodval (str "sha256:" ++ dig)).
  { apply goodval_app; [apply goodb_val; reflexivity|]. apply goodval_hex; exact HD. }
  destruct (set_good prefix h2 "WARC-Block-digest" _ G2 eq_refl GV) as (h3 & E3 & G3 & I3 & T3 & L3).
  destruct (set_spec h2 (str "WARC-Block-digest") (str "sha256:" ++ dig)) as (h3' & E3' & _ & _ & _ & F3).
  { apply G2. } { apply settable_ok. reflexivity. }
  assert (h3' = h3) by congruence. subst h3'.
  assert (E4 : Header_Set_Id n h3 dig = Ok (mkH (firstn (N.to_nat n) dig) (h_fields h3))).
  { unfold Header_Set_Id. rewrite HG. cbn [guard bind]. replace (n <=? len dig) with true by lia. reflexivity. }
  exists h2, h3, (mkH (firstn (N.to_nat n) dig) (h_fields h3)). split; [exact E2|]. split; [exact D2|]. split; [exact E3|].
  split; [exact E4|]. split; [exact G3|]. cbn [h_id h_fields].
  assert (HF : Forall (fun c => is_hex c = true) (firstn (N.to_nat n) dig)).
  { apply Forall_forall. intros c X. rewrite Forall_forall in HD. apply HD. rewrite <- (firstn_skipn (N.to_nat n) dig). apply in_app_iff. auto. }
  split; [apply hex_id; exact HF|]. split.
  - split; [reflexivity|]. split.
    + assert (X : has h3 "WARC-Block-Digest" (str "sha256:" ++ dig)).
      { apply has_get; [apply G3|]. rewrite T3. reflexivity. }
      exact X.
    + cbn [h_fields]. intros f NB. unfold named_as in NB. rewrite <- block_name in NB. rewrite (digest_name f).
      assert (EQ : In f (h_fields h3) <-> In f (h_fields h2)).
      { split.
        - intros X. destruct (F3 f X) as [[Y _]|(_ & Y & _)]; [exact Y|contradiction].
        - intros X. assert (Y : hget h3 "WARC-Block-digest" = Some (str "sha256:" ++ dig)) by (rewrite T3; reflexivity).
          assert (GG : Header_Get h3 (hf_name f) = Header_Get h2 (hf_name f)).
          { destruct (set_spec h2 (str "WARC-Block-digest") (str "sha256:" ++ dig)) as (h3' & E3'' & _ & _ & Q & _).
            { apply G2. } { apply settable_ok. reflexivity. }
            assert (h3' = h3) by congruence. subst h3'. rewrite Q. destruct (list_eq_dec _ _ _) as [e|e]; [contradiction|reflexivity]. }
          assert (GF : Header_Get h2 (hf_name f) = Some (hf_val f)).
          { unfold Header_Get. destruct G2 as (G2 & _). clear - G2 X. induction (h_fields h2) as [|g l IH]; [destruct X|].
            cbn [get_field]. destruct X as [->|X].
            - replace (caseeq (hf_name f) (hf_name f)) with true; [reflexivity|]. symmetry. apply caseeq_lower. reflexivity.
            - replace (caseeq (hf_name f) (hf_name g)) with false.
              + apply IH; [|exact X]. apply StronglySorted_inv in G2. tauto.
              + symmetry. apply caseeq_lower_f. intros Z. apply (sorted_tail_ne _ _ G2 f X). auto. }
          rewrite GF in GG. unfold Header_Get in GG. apply get_in in GG. destruct GG as (g & A & B & V).
          destruct (F3 g A) as [[W _]|(_ & W & _)]; [|exfalso; apply NB; congruence].
          assert (g = f); [|congruence]. destruct G2 as (G2 & _).
          clear - G2 X W B V. induction (h_fields h2) as [|k l IH]; [destruct X|].
          destruct X as [->|X], W as [->|W].
          + reflexivity.
          + exfalso. apply (sorted_tail_ne _ _ G2 g W). auto.
          + exfalso. apply (sorted_tail_ne _ _ G2 f X). auto.
          + apply IH; auto. apply StronglySorted_inv in G2. tauto. }
      rewrite EQ, F2, S1. tauto.
  - rewrite !hlen_eq in *. cbn [h_id h_fields]. unfold Header_Len in L3. rewrite len_app in L3.
    change (len (str "WARC-Block-digest")) with 17 in L3. change (len (str "sha256:")) with 7 in L3.
    assert (len (firstn (N.to_nat n) dig) <= 64).
    { unfold len in *. rewrite firstn_length. lia. }
    pose proof I2. pose proof I3. rewrite I3, I2 in L3. rewrite I2 in L2. lia.
Qed.

Lemma crnl_gunzip x : gunzip (crnlcrnl ++ x) = Some ([13; 10; 13; 10], x).
Proof.
  assert (H : gunzip crnlcrnl = Some ([13; 10; 13; 10], [])) by (vm_compute; reflexivity).
  destruct (gunzip_split _ _ _ H) as (m & E & G). rewrite app_nil_r in E. rewrite E. apply G.
Qed.
