(* Headers as the store path makes them. *)
From Coq Require Import String Sorting.Sorted.
From Coq Require Import ZifyBool ZifyNat ZifyN.
From Verif Require Import Base BaseLemmas ListLemmas IndexModel IndexSpec HeaderModel HeaderSpec HeaderProofs
  InflateSpec InflateProofs GzipModel GzipSpec GzipProofs ProgModel StoreModel StoreSpec.
Open Scope string_scope.
Open Scope list_scope.
Open Scope N_scope.

Definition okf (f : hfield) : Prop :=
  ok_name (hf_name f) /\ clean (hf_name f) /\ clean (hf_val f) /\ is_bytes (hf_name f) /\ is_bytes (hf_val f).
Definition hgood (hd : header) : Prop :=
  hsorted (h_fields hd) /\ Forall okf (h_fields hd).
Definition idgood (id : bytes) : Prop := (clean_id id /\ hexstr id) /\ is_bytes id.

Definition hget (hd : header) (n : string) : option bytes := Header_Get hd (str n).
Definition samename (a b : string) : bool := bytes_eqb (lower (str a)) (lower (str b)).

Definition goodname (n : string) : bool :=
  settable (str n) && forallb (fun c => negb (c =? 0) && negb (c =? 13) && (c <? 256)) (str n).

Definition goodval (v : bytes) : Prop := clean v /\ is_bytes v.

Lemma goodval_app a b : goodval a -> goodval b -> goodval (a ++ b).
Proof.
  intros ((A1 & A2) & A3) ((B1 & B2) & B3). split; [split|].
  - rewrite in_app_iff. tauto.
  - rewrite in_app_iff. tauto.
  - apply Forall_app. auto.
Qed.

Definition goodb (v : bytes) : bool := forallb (fun c => negb (c =? 0) && negb (c =? 13) && (c <? 256)) v.
Lemma goodb_val v : goodb v = true -> goodval v.
Proof.
  unfold goodb. rewrite forallb_forall. intros H. split; [split|].
  - intros X. apply H in X. discriminate.
  - intros X. apply H in X. discriminate.
  - apply Forall_forall. intros x X. apply H in X. lia.
Qed.

Lemma goodname_ok n : goodname n = true -> ok_name (str n) /\ clean (str n) /\ is_bytes (str n).
Proof.
  unfold goodname. rewrite andb_true_iff. intros [A B]. apply settable_ok in A. apply goodb_val in B. destruct B. auto.
Qed.

Lemma goodval_dec n : goodval (dec n).
Proof.
  pose proof (dec_digits n) as H. rewrite Forall_forall in H. unfold is_digit in H. split; [split|].
  - intros X. apply H in X. discriminate.
  - intros X. apply H in X. discriminate.
  - apply Forall_forall. intros x X. apply H in X. lia.
Qed.

Lemma goodval_hex d : Forall (fun c => is_hex c = true) d -> goodval d.
Proof.
  intros H. rewrite Forall_forall in H. unfold is_hex, is_digit in H. split; [split|].
  - intros X. apply H in X. discriminate.
  - intros X. apply H in X. discriminate.
  - apply Forall_forall. intros x X. apply H in X. lia.
Qed.

Lemma goodval_repeat c n : goodval [c] -> goodval (repeat c n).
Proof.
  intros H. induction n; [split; [split; intros []|constructor]|].
  change (repeat c (S n)) with ([c] ++ repeat c n). apply goodval_app; auto.
Qed.

Lemma goodval_firstn n d : goodval d -> goodval (firstn n d).
Proof.
  intros ((A1 & A2) & A3). assert (forall x, In x (firstn n d) -> In x d) as H.
  { intros x X. rewrite <- (firstn_skipn n d). apply in_or_app. auto. }
  split; [split; intros X; apply H in X; auto|]. unfold is_bytes in *. rewrite Forall_forall in *. auto.
Qed.

(** * Reading *)

Lemma has_get hd n v : hsorted (h_fields hd) -> (has hd n v <-> hget hd n = Some v).
Proof.
  intros Hs. unfold has, hget, Header_Get. split.
  - intros (f & Hf & E & <-). induction (h_fields hd) as [|g l IH]; [destruct Hf|].
    cbn [get_field]. destruct Hf as [->|Hf].
    + replace (caseeq (str n) (hf_name f)) with true; auto. symmetry. apply caseeq_lower. auto.
    + replace (caseeq (str n) (hf_name g)) with false.
      * apply IH; auto. apply StronglySorted_inv in Hs. tauto.
      * symmetry. apply caseeq_lower_f. rewrite <- E. intros X. apply (sorted_tail_ne _ _ Hs f Hf). auto.
  - intros H. apply get_in in H. destruct H as (f & A & B & E). exists f. auto.
Qed.

Lemma hasnt_get hd n : hasnt hd n <-> hget hd n = None.
Proof.
  unfold hasnt, hget, Header_Get. split.
  - intros H. apply get_none. intros f Hf E. apply (H f Hf). auto.
  - intros H f Hf. induction (h_fields hd) as [|g l IH]; [destruct Hf|]. cbn [get_field] in H.
    destruct (caseeq (str n) (hf_name g)) eqn:E; [discriminate|]. apply caseeq_lower_f in E.
    destruct Hf as [->|Hf]; auto.
Qed.

(** * Setting *)

Definition fsum (l : list hfield) : N := fold_right N.add 0 (map (fun f => Header_Len (hf_name f) (hf_val f)) l).
Definition hlen (prefix : bytes) (hd : header) : N := len (Header_Serialize prefix hd).

Lemma hlen_eq prefix hd : hlen prefix hd = 32 + len prefix + len (h_id hd) + fsum (h_fields hd).
Proof. apply serialized_len. Qed.

Lemma take_sum name l o r : take_field name l = (o, r) ->
  fsum l = fsum r + match o with Some f => Header_Len (hf_name f) (hf_val f) | None => 0 end /\
  match o with Some f => len (hf_name f) = len name | None => True end.
Proof.
  revert o r. induction l as [|f l IH]; intros o r; cbn [take_field].
  - intros H. injection H as <- <-. split; [reflexivity|exact I].
  - destruct (caseeq name (hf_name f)) eqn:E.
    + intros H. injection H as <- <-. unfold fsum. cbn [map fold_right]. split; [lia|].
      apply caseeq_lower in E. apply (f_equal (@List.length N)) in E. rewrite !lower_length in E. unfold len. lia.
    + destruct (take_field name l) as [o' r'] eqn:F. intros H. injection H as <- <-.
      destruct (IH _ _ eq_refl) as [A B]. split; auto. unfold fsum in *. cbn [map fold_right]. lia.
Qed.

Lemma place_sum name hf l l' : place_field name hf l = Ok l' -> fsum l' = fsum l + Header_Len (hf_name hf) (hf_val hf).
Proof.
  revert l'. induction l as [|f l IH]; intros l'; cbn [place_field].
  - intros H. injection H as <-. unfold fsum. cbn [map fold_right]. lia.
  - destruct (casecmp name (hf_name f)); try discriminate.
    + intros H. injection H as <-. unfold fsum. cbn [map fold_right]. lia.
    + destruct (place_field name hf l) as [r| | |] eqn:E; try discriminate. cbn [bind]. intros H. injection H as <-.
      specialize (IH r eq_refl). unfold fsum in *. cbn [map fold_right]. lia.
Qed.

Lemma set_len prefix hd name val hd' : Header_Set hd name val = Ok hd' ->
  hlen prefix hd' <= hlen prefix hd + Header_Len name val.
Proof.
  unfold Header_Set, guard. destruct (settable name); [|discriminate]. cbn [bind].
  destruct (take_field name (h_fields hd)) as [o r] eqn:E. destruct (place_field _ _ r) as [l| | |] eqn:F; try discriminate.
  cbn [bind]. intros H. injection H as <-. rewrite !hlen_eq. cbn [h_id h_fields].
  apply take_sum in E. destruct E as [E1 E2]. apply place_sum in F. cbn [hf_name hf_val] in F. rewrite F, E1.
  unfold Header_Len in *. destruct o as [f|]; [rewrite E2|]; lia.
Qed.

Lemma set_good prefix hd n v : hgood hd -> goodname n = true -> goodval v ->
  exists hd', Header_Set hd (str n) v = Ok hd' /\ hgood hd' /\ h_id hd' = h_id hd /\
    (forall m, hget hd' m = if samename m n then Some v else hget hd m) /\
    hlen prefix hd' <= hlen prefix hd + Header_Len (str n) v.
Proof.
  intros (G1 & G2) Hn (V1 & V2). destruct (goodname_ok _ Hn) as (N1 & N2 & N3).
  destruct (set_spec hd (str n) v G1 N1) as (hd' & E & Hs & Hi & Hg & Hf). exists hd'.
  split; [auto|]. split; [|split; [auto|split]].
  - split; [auto|]. apply Forall_forall. intros g Hg'. rewrite Forall_forall in G2.
    destruct (Hf g Hg') as [[X _]|(X1 & X2 & X3)]; [apply G2; auto|].
    unfold okf. rewrite X1. destruct X3 as [->|(f & Hf1 & ->)]; [repeat split; try apply N1; try apply N2; try apply V1; auto|].
    apply G2 in Hf1. destruct Hf1 as (? & ? & ? & ? & ?). repeat split; try apply V1; try tauto; try apply H; try apply H0; auto.
  - intros m. unfold hget. rewrite Hg. unfold samename, bytes_eqb, lexb_eq.
    destruct (list_eq_dec N.eq_dec (lower (str m)) (lower (str n))) as [e|e].
    + rewrite e, lex_refl. auto.
    + destruct (lex (lower (str m)) (lower (str n))) eqn:X; auto. apply lex_eq in X. contradiction.
  - eapply set_len. eauto.
Qed.

Lemma hset_ret prefix hd n v : hgood hd -> goodname n = true -> goodval v ->
  exists hd', hset hd n v = Ret hd' /\ hgood hd' /\ h_id hd' = h_id hd /\
    (forall m, hget hd' m = if samename m n then Some v else hget hd m) /\
    hlen prefix hd' <= hlen prefix hd + Header_Len (str n) v.
Proof.
  intros H1 H2 H3. destruct (set_good prefix hd n v H1 H2 H3) as (hd' & E & R). exists hd'. split; auto.
  unfold hset. rewrite E. auto.
Qed.

(* exact growth when the field is new *)
Lemma set_len_new prefix hd n v hd' : hgood hd -> goodname n = true -> hget hd n = None ->
  Header_Set hd (str n) v = Ok hd' -> hlen prefix hd' = hlen prefix hd + Header_Len (str n) v.
Proof.
  intros (G1 & _) Hn Hg E. destruct (goodname_ok _ Hn) as (N1 & _).
  destruct (set_grows prefix hd (str n) v G1 N1 Hg) as (h2 & E2 & X). rewrite E in E2. injection E2 as <-. exact X.
Qed.

(** * As text *)

Lemma ser_text prefix hd : Header_Serialize prefix hd = warc_text prefix hd.
Proof.
  unfold Header_Serialize, warc_text. change crlf with [13; 10]. repeat f_equal.
  rewrite flat_map_concat_map. auto.
Qed.

Lemma ser_bytes prefix hd : is_bytes prefix -> hgood hd -> is_bytes (h_id hd) -> is_bytes (Header_Serialize prefix hd).
Proof.
  intros Hp (G1 & G2) G4. unfold Header_Serialize.
  assert (S : forall s, is_bytes (str s)).
  { intros s. induction s as [|a s IH]; cbn [str]; constructor; auto. pose proof (Ascii.N_ascii_bounded a). lia. }
  assert (K : is_bytes crlf) by (repeat constructor).
  assert (M : is_bytes (List.concat (map field_line (h_fields hd)))).
  { clear G1. induction G2 as [|f l (_ & _ & _ & A & B) G IH]; cbn [map List.concat]; [constructor|].
    apply Forall_app. split; auto. unfold field_line.
    apply Forall_app. split; [exact A|]. apply Forall_app. split; [repeat constructor|].
    apply Forall_app. split; [exact B|exact K]. }
  apply Forall_app. split; [apply S|]. apply Forall_app. split; [exact K|]. apply Forall_app. split; [apply S|].
  apply Forall_app. split; [exact Hp|]. apply Forall_app. split; [exact G4|]. apply Forall_app. split; [repeat constructor|].
  apply Forall_app. split; [exact K|]. apply Forall_app. split; [exact M|exact K].
Qed.

Lemma ser_nonul prefix hd : clean prefix -> Forall (fun f => clean (hf_name f) /\ clean (hf_val f)) (h_fields hd) ->
  clean_id (h_id hd) -> ~ In 0 (Header_Serialize prefix hd).
Proof.
  intros Hp G2 G3. unfold Header_Serialize.
  assert (S : forall s, goodb (str s) = true -> ~ In 0 (str s)).
  { intros s H. apply goodb_val in H. apply H. }
  assert (K : ~ In 0 crlf) by (intros [|[|[]]]; discriminate).
  assert (M : ~ In 0 (List.concat (map field_line (h_fields hd)))).
  { induction G2 as [|f l (A & B) G IH]; cbn [map List.concat]; [intros []|].
    rewrite in_app_iff. intros [X|X]; auto. unfold field_line in X. rewrite !in_app_iff in X.
    destruct A as [A _], B as [B _]. destruct X as [X|[X|[X|X]]]; auto. destruct X as [X|[X|[]]]; discriminate. }
  rewrite !in_app_iff. destruct Hp as [P _], G3 as ((I & _) & _). 
  intros [X|[X|[X|[X|[X|[X|[X|[X|X]]]]]]]]; auto.
  - revert X. apply S. reflexivity.
  - revert X. apply S. reflexivity.
  - destruct X as [X|[]]; discriminate.
Qed.

Lemma good_wf hd : hgood hd -> idgood (h_id hd) -> wf_header hd.
Proof.
  intros (G1 & G2) ((_ & G3) & G4). split; [auto|split; [auto|]]. eapply Forall_impl; [|exact G2].
  intros f (A & B & E & _). auto.
Qed.

Section Ser.
Variable C : conf.
Variable L : zlib.
Hypothesis CO : conf_ok C.
Hypothesis ZO : zlib_ok L.
Notation prefix := (c_prefix C).

Lemma vsb_cases level t : is_bytes t -> len t < 2 ^ 61 ->
  Gzip_Vsb (z_gzip L) level t = Abort \/
  exists p, Gzip_Vsb (z_gzip L) level t = Ok p /\ gunzip p = Some (t, []) /\
    24 <= len p <= len t + len t / 64 + 100 /\ aa_member p /\ (level = 0 -> len t <= len p).
Proof.
  intros Hb Hl. destruct (zo_gzip L ZO level t Hb) as (G1 & G2 & G3); [lia|].
  unfold Gzip_Vsb. unfold Gzip_Vsb. destruct (Gzip_GoodAa (z_gzip L level t)) as [b| | |] eqn:G; cbn [bind].
  - unfold guard. destruct b; cbn [bind]; auto. right.
    replace (len (z_gzip L level t) <? 24) with false by lia.
    assert (E : Gzip_Vsb (z_gzip L) level t = Ok (file_write (z_gzip L level t) 16 (le_enc 8 (len (z_gzip L level t))))).
    { unfold Gzip_Vsb. rewrite G. cbn [bind]. unfold guard. cbn [bind]. replace (len (z_gzip L level t) <? 24) with false by lia. auto. }
    set (p := file_write (z_gzip L level t) 16 (le_enc 8 (len (z_gzip L level t)))) in *.
    destruct (set_nth_good _ G) as (xfl & rest & Hx & Ez).
    assert (Er : exists l r, rest = l ++ r /\ List.length l = 8%nat).
    { exists (firstn 8 rest), (skipn 8 rest). rewrite firstn_skipn. split; auto.
      rewrite firstn_length. rewrite Ez in G2. rewrite len_app in G2. unfold len in G2. simpl List.length in G2. lia. }
    destruct Er as (l & r & -> & L8).
    assert (Ep : p = ([31; 139; 8; 4; 0; 0; 0; 0; xfl; 3; 12; 0; 65; 97; 8; 0] ++ le_enc 8 (len (z_gzip L level t))) ++ r).
    { unfold p. assert (Le : List.length (le_enc 8 (len (z_gzip L level t))) = 8%nat) by apply le_enc_length.
      revert Le. generalize (le_enc 8 (len (z_gzip L level t))). intros e Le. rewrite Ez. cbn [app].
      pose proof (write_at [] ([31; 139; 8; 4; 0; 0; 0; 0; xfl; 3; 12; 0; 65; 97; 8; 0] ++ l) r e 16) as W.
      cbn [app] in W. change (len [] + N.of_nat 16) with 16 in W. rewrite W.
      - rewrite Le. change (16 + 8)%nat with 24%nat. rewrite <- !app_assoc. cbn [firstn app skipn].
        destruct l as [|? [|? [|? [|? [|? [|? [|? [|? [|]]]]]]]]]; try discriminate. auto.
      - rewrite Le. simpl List.length. lia. }
    assert (Lp : len p = len (z_gzip L level t)).
    { rewrite Ep. rewrite !len_app, le_enc_len. rewrite Ez. rewrite !len_app. unfold len. rewrite L8. simpl List.length. lia. }
    exists p. split; [auto|]. destruct (vsb_aa _ _ _ _ E ltac:(lia)) as (_ & _ & V). rewrite V. split; auto.
    split; [lia|]. split; [|rewrite Lp; exact G3]. exists xfl, r. split; auto. split; [lia|]. rewrite Lp. exact Ep.
  - auto.
  - exfalso. revert G. unfold Gzip_GoodAa, guard. destruct (16 <=? _); [|discriminate]. cbn [bind]. destruct (_ && _); discriminate.
  - exfalso. revert G. unfold Gzip_GoodAa, guard. destruct (16 <=? _); [|discriminate]. cbn [bind]. destruct (_ && _); discriminate.
Qed.

(* a header which fits *)
Lemma hser_cases level hd : hgood hd -> is_bytes (h_id hd) -> hlen prefix hd <= 3800 ->
  hser C L level hd = Die DAbort \/
  exists p, hser C L level hd = Ret p /\ gunzip p = Some (warc_text prefix hd, []) /\
    24 <= len p <= hlen prefix hd + 160 /\ (level = 0 -> hlen prefix hd <= len p).
Proof.
  intros Hg Hi Hl. destruct (co_prefix C CO) as (P1 & P2 & P3).
  destruct (vsb_cases level (Header_Serialize prefix hd) (ser_bytes _ _ P2 Hg Hi)) as [E|(p & E & G & B & _ & B0)].
  - unfold hlen in Hl. lia.
  - left. unfold hser. rewrite E. auto.
  - right. exists p. unfold hser. rewrite E. split; auto. rewrite <- ser_text. split; auto. unfold hlen in *.
    assert (len (Header_Serialize prefix hd) / 64 <= 60) by (apply N.div_le_upper_bound; lia). lia.
Qed.
End Ser.

(** * Identifiers *)

Lemma hex_id d : Forall (fun c => is_hex c = true) d -> idgood d /\ forallb is_graph d = true.
Proof.
  intros H. split; [split; [split; [|exact H]|]|].
  - destruct (goodval_hex d H) as [A B]. split; [auto|]. rewrite Forall_forall in H. split; intros X; apply H in X; discriminate.
  - destruct (goodval_hex d H) as [A B]. auto.
  - apply forallb_forall. rewrite Forall_forall in H. intros x X. apply H in X. unfold is_graph, is_hex, is_digit in *. lia.
Qed.

Lemma forall_firstn {A} (P : A -> Prop) n l : Forall P l -> Forall P (firstn n l).
Proof. intros H. revert n. induction H; intros [|n]; cbn [firstn]; constructor; auto. Qed.

Lemma sha_hex L d : zlib_ok L -> Forall (fun c => is_hex c = true) (z_sha L d).
Proof. intros ZO. eapply Forall_impl; [|apply (zo_sha L ZO d)]. intros a [H _]. auto. Qed.

(* The identifier Ident_Set computes, if it does not fail; the fields stay. *)
Lemma ident_set_cases L C hd d input hd' : zlib_ok L -> conf_ok C ->
  Ident_Set (z_sha L) (c_prefix C) (c_idsize C) hd (z_sha L d) input = Ok hd' ->
  h_fields hd' = h_fields hd /\
  match input with
  | Some i => h_id hd' = firstn (N.to_nat (c_idsize C)) i
  | None => exists x, h_id hd' = firstn (N.to_nat (c_idsize C)) (z_sha L x) /\
      (hget hd "WARC-Type" = Some (str "metadata") ->
         exists ref, hget hd "WARC-Refers-To" = Some ref /\ x = ref ++ [10] ++ z_sha L d ++ [10]) /\
      (hget hd "WARC-Type" <> Some (str "metadata") -> x = d)
  end.
Proof.
  intros ZO CO. unfold Ident_Set. destruct input as [i|].
  - destruct (IDX_Valid_Id (c_prefix C) (c_idsize C) i); try discriminate.
    unfold Header_Set_Id, guard. destruct (forallb is_graph i); [|discriminate]. cbn [bind].
    destruct (c_idsize C <=? len i); [|discriminate]. cbn [bind]. intros H. injection H as <-. auto.
  - destruct (Ident_Create (z_sha L) (c_idsize C) hd (z_sha L d)) as [id| | |] eqn:E; try discriminate. cbn [bind].
    unfold Header_Set_Id, guard. destruct (forallb is_graph id); [|discriminate]. cbn [bind].
    destruct (c_idsize C <=? len id); [|discriminate]. cbn [bind]. intros H. injection H as <-. cbn [h_fields h_id]. split; auto.
    unfold Ident_Create in E. fold (hget hd "WARC-Type") in E. fold (hget hd "WARC-Refers-To") in E.
    destruct (hget hd "WARC-Type") as [t|]; [|discriminate].
    assert (F : forall x, firstn (N.to_nat (c_idsize C)) (firstn (N.to_nat (c_idsize C)) x) = firstn (N.to_nat (c_idsize C)) (x : bytes)).
    { intros x. rewrite firstn_firstn, Nat.min_id. auto. }
    destruct (bytes_eqb t (str "resource")) eqn:T1.
    { cbn [bind] in E. injection E as <-. exists d. rewrite F. split; [auto|]. apply bytes_eqb_true in T1. subst. split; [discriminate|auto]. }
    destruct (bytes_eqb t (str "continuation")) eqn:T2.
    { cbn [bind] in E. injection E as <-. exists d. rewrite F. split; [auto|]. apply bytes_eqb_true in T2. subst. split; [discriminate|auto]. }
    destruct (bytes_eqb t (str "warcinfo")) eqn:T3.
    { cbn [bind] in E. injection E as <-. exists d. rewrite F. split; [auto|]. apply bytes_eqb_true in T3. subst. split; [discriminate|auto]. }
    destruct (bytes_eqb t (str "metadata")) eqn:T4; [|discriminate].
    destruct (hget hd "WARC-Refers-To") as [ref|]; [|discriminate]. cbn [bind] in E. injection E as <-.
    exists (ref ++ [10] ++ z_sha L d ++ [10]). rewrite F. split; [auto|]. split; [eauto|].
    apply bytes_eqb_true in T4. subst. congruence.
Qed.

Lemma ident_set_res L C hd d input : 
  match Ident_Set (z_sha L) (c_prefix C) (c_idsize C) hd d input with UB | Fuel => False | _ => True end.
Proof.
  assert (H : forall id, match Header_Set_Id (c_idsize C) hd id with UB | Fuel => False | _ => True end).
  { intros id. unfold Header_Set_Id, guard. destruct (forallb is_graph id); cbn [bind]; auto. destruct (_ <=? _); cbn [bind]; auto. }
  unfold Ident_Set. destruct input as [i|]; [destruct (IDX_Valid_Id _ _ _); try apply H; auto|].
  unfold Ident_Create. destruct (Header_Get hd (str "WARC-Type")) as [t|]; cbn [bind]; auto.
  destruct (bytes_eqb t (str "resource")); cbn [bind]; [apply H|].
  destruct (bytes_eqb t (str "continuation")); cbn [bind]; [apply H|].
  destruct (bytes_eqb t (str "warcinfo")); cbn [bind]; [apply H|].
  destruct (bytes_eqb t (str "metadata")); cbn [bind]; auto.
  destruct (Header_Get hd (str "WARC-Refers-To")); cbn [bind]; [apply H|auto].
Qed.

Lemma ident_len C (d : bytes) : conf_ok C -> len d = 64 -> len (firstn (N.to_nat (c_idsize C)) d) = c_idsize C.
Proof. intros CO H. pose proof (co_idsize C CO). unfold len in *. rewrite firstn_length. lia. Qed.

Lemma d2i prefix n fid x : Digest2Ident prefix n fid = Ok x ->
  x = prefix ++ fid /\ Forall (fun c => is_hex c = true) fid /\ len fid = n.
Proof.
  unfold Digest2Ident, IDX_Valid_Id, strip_prefix, ncaseeq. rewrite firstn_app_len, firstn_all, skipn_app_len.
  replace (caseeq prefix prefix) with true by (symmetry; apply caseeq_lower; auto).
  destruct (existsb _ fid); [discriminate|]. destruct (forallb is_hex fid) eqn:H; [|discriminate]. cbn [negb].
  destruct (len fid <? n) eqn:A; [discriminate|]. destruct (n <? len fid) eqn:B; [discriminate|].
  intros E. injection E as <-. split; [auto|]. split; [|lia]. apply Forall_forall. apply forallb_forall. auto.
Qed.

Ltac names := repeat match goal with
  | |- context [samename ?a ?b] => let v := eval vm_compute in (samename a b) in change (samename a b) with v; cbv iota
  end.
Ltac names_in H := repeat match type of H with
  | context [samename ?a ?b] => let v := eval vm_compute in (samename a b) in change (samename a b) with v in H; cbv iota in H
  end.
