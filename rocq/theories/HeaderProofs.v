(* Lemmas about HeaderModel.v. *)
From Coq Require Import List NArith ZArith Bool Lia Sorting.Sorted String.
From Coq Require Import ZifyBool ZifyNat ZifyN.
From Verif Require Import Base BaseLemmas IndexModel HeaderModel HeaderSpec.
Ltac Zify.zify_post_hook ::= Z.div_mod_to_equations.
Open Scope string_scope.
Open Scope list_scope.
Open Scope N_scope.

(** * Names *)

Lemma caseeq_lower a b : caseeq a b = true <-> lower a = lower b.
Proof. unfold caseeq. apply lexb_eq_true. Qed.

Lemma caseeq_lower_f a b : caseeq a b = false <-> lower a <> lower b.
Proof.
  split.
  - intros H E. apply caseeq_lower in E. congruence.
  - intros H. destruct (caseeq a b) eqn:E; auto. apply caseeq_lower in E. contradiction.
Qed.

Lemma settable_ok n : settable n = true <-> ok_name n.
Proof.
  unfold settable, ok_name. rewrite andb_true_iff, !negb_true_iff. split.
  - intros [H1 H2]. split.
    + intros H. assert (existsb (fun c => c =? 58) n = true); [|congruence].
      apply existsb_exists. exists 58. auto.
    + apply caseeq_lower_f. auto.
  - intros [H1 H2]. split.
    + destruct (existsb _ n) eqn:E; auto. apply existsb_exists in E. destruct E as (c & Hc & E).
      apply N.eqb_eq in E. subst. contradiction.
    + apply caseeq_lower_f. auto.
Qed.

(** * The list as a map *)

Definition hsorted (l : list hfield) : Prop := StronglySorted name_lt l.

Lemma get_none l n : (forall f, In f l -> lower n <> lower (hf_name f)) -> get_field l n = None.
Proof.
  induction l as [|f l IH]; intros H; auto. cbn [get_field].
  replace (caseeq n (hf_name f)) with false.
  - apply IH. intros. apply H. right; auto.
  - symmetry. apply caseeq_lower_f. apply H. left; auto.
Qed.

Lemma get_in l n v : get_field l n = Some v -> exists f, In f l /\ lower n = lower (hf_name f) /\ hf_val f = v.
Proof.
  induction l as [|f l IH]; cbn [get_field]; intros H; [discriminate|].
  destruct (caseeq n (hf_name f)) eqn:E.
  - injection H as <-. exists f. apply caseeq_lower in E. repeat split; auto. left; auto.
  - destruct (IH H) as (g & A & B & C). exists g. repeat split; auto. right; auto.
Qed.

Lemma name_lt_trans a b c : name_lt a b -> name_lt b c -> name_lt a c.
Proof. unfold name_lt. intros. eapply lex_trans_lt; eauto. Qed.

Lemma sorted_tail_ne f l : hsorted (f :: l) -> forall g, In g l -> lower (hf_name f) <> lower (hf_name g).
Proof.
  intros H g Hg E. apply StronglySorted_inv in H. destruct H as [_ H]. rewrite Forall_forall in H.
  apply H in Hg. unfold name_lt in Hg. rewrite E, lex_refl in Hg. discriminate.
Qed.

Lemma take_spec name l : hsorted l ->
  exists o rest, take_field name l = (o, rest) /\ hsorted rest /\
    (forall g, In g rest -> In g l /\ lower name <> lower (hf_name g)) /\
    (forall m, lower m <> lower name -> get_field rest m = get_field l m) /\
    match o with
    | Some f => In f l /\ lower (hf_name f) = lower name
    | None => True
    end.
Proof.
  induction l as [|f l IH]; intros H; cbn [take_field].
  - exists None, []. repeat split; auto; try constructor; intros g [].
  - assert (Hs := H). apply StronglySorted_inv in H. destruct H as [Hl Hf].
    destruct (caseeq name (hf_name f)) eqn:E.
    + exists (Some f), l. apply caseeq_lower in E. split; auto. split; auto. split; [|split].
      * intros g Hg. split; [right; auto|]. rewrite E. eapply sorted_tail_ne; eauto.
      * intros m Hm. cbn [get_field]. replace (caseeq m (hf_name f)) with false; auto.
        symmetry. apply caseeq_lower_f. congruence.
      * split; [left; auto|congruence].
    + destruct (IH Hl) as (o & rest & Eq1 & Hs' & Hin & Hget & Ho). rewrite Eq1.
      exists o, (f :: rest). split; auto. apply caseeq_lower_f in E. split; [|split; [|split]].
      * constructor; auto. apply Forall_forall. intros g Hg. rewrite Forall_forall in Hf. apply Hf. apply Hin. auto.
      * intros g [<-|Hg]; [split; auto; left; auto|]. destruct (Hin g Hg). split; auto. right; auto.
      * intros m Hm. cbn [get_field]. destruct (caseeq m (hf_name f)); auto.
      * destruct o; auto. destruct Ho. split; auto. right; auto.
Qed.

Lemma place_spec name hf l : hsorted l -> lower (hf_name hf) = lower name ->
  (forall g, In g l -> lower name <> lower (hf_name g)) ->
  exists l', place_field name hf l = Ok l' /\ hsorted l' /\
    (forall g, In g l' <-> g = hf \/ In g l) /\
    (forall m, get_field l' m = if list_eq_dec N.eq_dec (lower m) (lower name) then Some (hf_val hf) else get_field l m).
Proof.
  intros Hs Hn. induction l as [|f l IH]; intros Hne; cbn [place_field].
  - exists [hf]. split; auto. split; [repeat constructor|]. split.
    + intros g. simpl. intuition.
    + intros m. cbn [get_field]. destruct (list_eq_dec _ _ _) as [E|E].
      * replace (caseeq m (hf_name hf)) with true; auto. symmetry. apply caseeq_lower. congruence.
      * replace (caseeq m (hf_name hf)) with false; auto. symmetry. apply caseeq_lower_f. congruence.
  - assert (Hs' := Hs). apply StronglySorted_inv in Hs. destruct Hs as [Hl Hf].
    unfold casecmp. destruct (lex (lower name) (lower (hf_name f))) eqn:E.
    + exfalso. apply lex_eq in E. apply (Hne f); auto. left; auto.
    + exists (hf :: f :: l). split; auto. split; [|split].
      * constructor; auto. constructor.
        -- unfold name_lt. rewrite Hn. auto.
        -- apply Forall_forall. intros g Hg. rewrite Forall_forall in Hf. eapply name_lt_trans; [|apply Hf; eauto].
           unfold name_lt. rewrite Hn. auto.
      * intros g. simpl. intuition.
      * intros m. cbn [get_field]. destruct (list_eq_dec _ _ _) as [E1|E1].
        -- replace (caseeq m (hf_name hf)) with true; auto. symmetry. apply caseeq_lower. congruence.
        -- replace (caseeq m (hf_name hf)) with false; auto. symmetry. apply caseeq_lower_f. congruence.
    + destruct IH as (l' & El & Hsl & Hin & Hget); auto. { intros g Hg. apply Hne. right; auto. }
      rewrite El. cbn [bind]. exists (f :: l'). split; auto. split; [|split].
      * constructor; auto. apply Forall_forall. intros g Hg. apply Hin in Hg. destruct Hg as [->|Hg].
        -- unfold name_lt. rewrite Hn. rewrite lex_antisym, E. auto.
        -- rewrite Forall_forall in Hf. auto.
      * intros g. simpl. rewrite Hin. intuition.
      * intros m. cbn [get_field]. rewrite Hget. destruct (list_eq_dec _ _ _) as [E1|E1]; auto.
        replace (caseeq m (hf_name f)) with false; auto. symmetry. apply caseeq_lower_f. rewrite E1.
        intros E2. rewrite E2, lex_refl in E. discriminate.
Qed.

Lemma set_spec hd name val : hsorted (h_fields hd) -> ok_name name ->
  exists hd', Header_Set hd name val = Ok hd' /\ hsorted (h_fields hd') /\ h_id hd' = h_id hd /\
    (forall m, Header_Get hd' m = if list_eq_dec N.eq_dec (lower m) (lower name) then Some val else Header_Get hd m) /\
    (forall g, In g (h_fields hd') ->
        (In g (h_fields hd) /\ lower (hf_name g) <> lower name) \/
        (hf_val g = val /\ lower (hf_name g) = lower name /\
         (hf_name g = name \/ exists f, In f (h_fields hd) /\ hf_name g = hf_name f))).
Proof.
  intros Hs Hok. unfold Header_Set. replace (settable name) with true by (symmetry; apply settable_ok; auto).
  cbn [guard bind]. destruct (take_spec name (h_fields hd) Hs) as (o & rest & E & Hr & Hin & Hget & Ho).
  rewrite E. set (hf := mkF _ val).
  assert (Hn : lower (hf_name hf) = lower name) by (destruct o; cbn [hf hf_name]; [apply Ho|auto]).
  destruct (place_spec name hf rest Hr Hn) as (l' & El & Hl & Hin' & Hget').
  { intros g Hg. apply Hin. auto. }
  rewrite El. cbn [bind]. eexists. split; [reflexivity|]. cbn [h_fields h_id]. split; auto. split; auto. split.
  - intros m. unfold Header_Get. cbn [h_fields]. rewrite Hget'.
    destruct (list_eq_dec _ _ _) as [E1|E1]; auto.
  - intros g Hg. apply Hin' in Hg. destruct Hg as [->|Hg].
    + right. split; auto. split; auto. destruct o as [f|]; cbn [hf hf_name]; auto. right. exists f. split; auto. apply Ho.
    + left. destruct (Hin g Hg) as [? Hx]. split; auto.
Qed.

Lemma hsorted_filter p l : hsorted l -> hsorted (filter p l).
Proof.
  induction l as [|f l IH]; intros H; auto. apply StronglySorted_inv in H. destruct H as [Hl Hf]. cbn [filter].
  destruct (p f); auto. constructor; [apply IH; auto|]. apply Forall_forall. intros g Hg. apply filter_In in Hg.
  rewrite Forall_forall in Hf. apply Hf. apply Hg.
Qed.

Lemma del_spec hd name : hsorted (h_fields hd) -> ok_name name ->
  exists hd', Header_Delete hd name = Ok hd' /\ hsorted (h_fields hd') /\ h_id hd' = h_id hd /\
    (forall m, Header_Get hd' m = if list_eq_dec N.eq_dec (lower m) (lower name) then None else Header_Get hd m) /\
    (forall g, In g (h_fields hd') -> In g (h_fields hd)).
Proof.
  intros Hs Hok. unfold Header_Delete. replace (settable name) with true by (symmetry; apply settable_ok; auto).
  cbn [guard bind]. eexists. split; [reflexivity|]. cbn [h_fields h_id]. split; [apply hsorted_filter; auto|].
  split; auto. split.
  - intros m. unfold Header_Get. cbn [h_fields].
    induction (h_fields hd) as [|f l IH].
    + simpl. destruct (list_eq_dec _ _ _); auto.
    + apply StronglySorted_inv in Hs. destruct Hs as [Hl Hf]. specialize (IH Hl). cbn [filter].
      destruct (caseeq name (hf_name f)) eqn:E; cbn [negb get_field].
      * rewrite IH. destruct (list_eq_dec _ _ _) as [E1|E1]; auto.
        apply caseeq_lower in E. replace (caseeq m (hf_name f)) with false; auto.
        symmetry. apply caseeq_lower_f. congruence.
      * rewrite IH. destruct (list_eq_dec _ _ _) as [E1|E1]; auto.
        apply caseeq_lower_f in E. replace (caseeq m (hf_name f)) with false; auto.
        symmetry. apply caseeq_lower_f. congruence.
  - intros g Hg. apply filter_In in Hg. apply Hg.
Qed.

Lemma run_hops_spec ops : forall hd, hsorted (h_fields hd) -> Forall (fun o => ok_name (hop_name o)) ops ->
  exists hd', run_hops hd ops = Ok hd' /\ hsorted (h_fields hd') /\ h_id hd' = h_id hd /\
    (forall n, Header_Get hd' n = outcome (Header_Get hd n) ops n).
Proof.
  induction ops as [|o ops IH]; intros hd Hs Hok.
  - exists hd. cbn [run_hops outcome]. auto.
  - apply Forall_cons_iff in Hok. destruct Hok as [Ho Hok]. destruct o as [n v|n]; cbn [hop_name] in Ho; cbn [run_hops outcome].
    + destruct (set_spec hd n v Hs Ho) as (hd1 & E & Hs1 & Hid & Hget & _). rewrite E. cbn [bind].
      destruct (IH hd1 Hs1 Hok) as (hd2 & E2 & Hs2 & Hid2 & Hget2). exists hd2. split; auto. split; auto. split; [congruence|].
      intros m. rewrite Hget2, Hget. f_equal.
      destruct (list_eq_dec _ (lower m) (lower n)), (list_eq_dec _ (lower n) (lower m)); congruence.
    + destruct (del_spec hd n Hs Ho) as (hd1 & E & Hs1 & Hid & Hget & _). rewrite E. cbn [bind].
      destruct (IH hd1 Hs1 Hok) as (hd2 & E2 & Hs2 & Hid2 & Hget2). exists hd2. split; auto. split; auto. split; [congruence|].
      intros m. rewrite Hget2, Hget. f_equal.
      destruct (list_eq_dec _ (lower m) (lower n)), (list_eq_dec _ (lower n) (lower m)); congruence.
Qed.

(** * Numbers *)

Lemma num_loop_digits s : Forall (fun c => is_digit c = true) s -> forall r,
  r < 2 ^ 63 ->
  num_loop s r = if r * 10 ^ len s + dec_value s <? 2 ^ 63 then Ok (Z.of_N (r * 10 ^ len s + dec_value s)) else UB.
Proof.
  induction s as [|c s IH]; intros Hd r Hr; cbn [num_loop dec_value].
  - unfold len. simpl (List.length []). change (10 ^ N.of_nat 0) with 1. rewrite N.mul_1_r, N.add_0_r.
    replace (r <? 2 ^ 63) with true by (symmetry; apply N.ltb_lt; auto). auto.
  - apply Forall_cons_iff in Hd. destruct Hd as [Hc Hd].
    unfold is_digit in Hc. apply andb_prop in Hc. destruct Hc as [H1 H2].
    apply N.leb_le in H1, H2.
    replace (c <? 48) with false by (symmetry; apply N.ltb_ge; auto).
    replace (57 <? c) with false by (symmetry; apply N.ltb_ge; auto). cbn [orb].
    assert (HL : len (c :: s) = len s + 1) by (unfold len; simpl List.length; lia).
    rewrite HL, N.pow_add_r, N.pow_1_r.
    assert (P : 10 ^ len s <> 0) by (apply N.pow_nonzero; discriminate).
    replace (r * (10 ^ len s * 10) + ((c - 48) * 10 ^ len s + dec_value s))
      with ((r * 10 + (c - 48)) * 10 ^ len s + dec_value s) by lia.
    destruct (2 ^ 63 <=? r * 10 + (c - 48)) eqn:E.
    + apply N.leb_le in E. replace (_ <? 2 ^ 63) with false; auto. symmetry. apply N.ltb_ge.
      etransitivity; [exact E|]. set (x := r * 10 + (c - 48)). nia.
    + apply N.leb_gt in E. apply IH; auto.
Qed.

Lemma num_loop_bad s : forall r, r < 2 ^ 63 -> ~ Forall (fun c => is_digit c = true) s ->
  num_loop s r = Ok (-1)%Z \/
  (num_loop s r = UB /\ exists a b, s = a ++ b /\ Forall (fun c => is_digit c = true) a /\ 2 ^ 63 <= r * 10 ^ len a + dec_value a).
Proof.
  induction s as [|c s IH]; intros r Hr Hn; [exfalso; apply Hn; constructor|]. cbn [num_loop].
  destruct ((c <? 48) || (57 <? c)) eqn:E1; auto.
  assert (Hc : is_digit c = true).
  { unfold is_digit. apply orb_false_iff in E1. destruct E1 as [A B]. apply N.ltb_ge in A, B.
    apply andb_true_intro. split; apply N.leb_le; auto. }
  assert (Hc' : 48 <= c). { unfold is_digit in Hc. apply andb_prop in Hc. destruct Hc as [A _]. apply N.leb_le in A. auto. }
  destruct (2 ^ 63 <=? r * 10 + (c - 48)) eqn:E.
  - right. split; auto. exists [c], s. split; auto. split; [constructor; auto|]. apply N.leb_le in E.
    cbn [dec_value]. change (10 ^ len [c]) with 10. change (10 ^ len (@nil N)) with 1. lia.
  - apply N.leb_gt in E. assert (Hn' : ~ Forall (fun c => is_digit c = true) s) by (intros Hs; apply Hn; constructor; auto).
    destruct (IH (r * 10 + (c - 48)) E Hn') as [H|(H & a & b & -> & Ha & Hv)]; auto.
    right. split; auto. exists (c :: a), b. split; auto. split; [constructor; auto|].
    cbn [dec_value]. assert (HL : len (c :: a) = len a + 1) by (unfold len; simpl List.length; lia).
      rewrite HL, N.pow_add_r, N.pow_1_r. lia.
Qed.

Lemma dec_value_app a b : dec_value (a ++ b) = dec_value a * 10 ^ len b + dec_value b.
Proof.
  induction a as [|c a IH]; cbn [app dec_value]; [lia|]. rewrite IH.
  assert (HL : len (a ++ b) = len a + len b) by (unfold len; rewrite app_length; lia).
  rewrite HL, N.pow_add_r. lia.
Qed.

(** * Serialize and parse *)

Lemma strchr_app c a b : ~ In c a -> strchr c (a ++ c :: b) = Some (a, b).
Proof.
  induction a as [|x a IH]; intros H; cbn [app strchr].
  - rewrite N.eqb_refl. auto.
  - replace (x =? c) with false. { rewrite IH; auto. intros Hx. apply H. right; auto. }
    symmetry. apply N.eqb_neq. intros ->. apply H. left; auto.
Qed.

Lemma strrchr_app c a b : ~ In c b -> strrchr c (a ++ c :: b) = Some (a, b).
Proof.
  intros H. unfold strrchr. rewrite rev_app_distr. cbn [rev]. rewrite <- app_assoc. cbn [app].
  rewrite strchr_app. { rewrite !rev_involutive. auto. }
  intros Hx. apply H. apply in_rev. auto.
Qed.

Definition ok_field (f : hfield) : Prop :=
  ok_name (hf_name f) /\ ~ In 13 (hf_name f) /\ ~ In 13 (hf_val f).

Lemma parse_fields prefix fs : Forall ok_field fs -> forall hd fuel,
  (length fs < fuel)%nat ->
  parse_loop fuel prefix hd (concat (map field_line fs) ++ crlf) =
  run_hops hd (map (fun f => HSet (hf_name f) (hf_val f)) fs).
Proof.
  induction fs as [|f fs IH]; intros Hok hd fuel Hf.
  - destruct fuel; [simpl in Hf; lia|]. reflexivity.
  - destruct fuel as [|fuel]; [simpl in Hf; lia|]. simpl List.length in Hf.
    apply Forall_cons_iff in Hok. destruct Hok as [(Hn & Hn13 & Hv13) Hok].
    cbn [map concat run_hops]. rewrite <- app_assoc.
    assert (EL : field_line f ++ concat (map field_line fs) ++ crlf =
       (hf_name f ++ 58 :: 32 :: hf_val f) ++ 13 :: 10 :: (concat (map field_line fs) ++ crlf)).
    { unfold field_line, crlf. repeat (rewrite <- !app_assoc || cbn [app]). auto. }
    rewrite EL. cbn [parse_loop].
    set (q := concat (map field_line fs) ++ crlf) in *.
    assert (Hnl : exists x t, hf_name f ++ 58 :: 32 :: hf_val f = x :: t).
    { destruct (hf_name f); simpl; eauto. }
    destruct Hnl as (x & t & Ext).
    assert (Hs : strchr 13 ((hf_name f ++ 58 :: 32 :: hf_val f) ++ 13 :: 10 :: q) =
       Some (hf_name f ++ 58 :: 32 :: hf_val f, 10 :: q)).
    { apply strchr_app. rewrite in_app_iff. simpl. intuition discriminate. }
    rewrite Hs. destruct Hn as [Hn58 Hnid].
    assert (Hc : strchr 58 (hf_name f ++ 58 :: 32 :: hf_val f) = Some (hf_name f, 32 :: hf_val f)) by (apply strchr_app; auto).
    rewrite Ext in *. cbn [app]. rewrite Hc.
    replace (bytes_eqb (hf_name f) (str "WARC-Record-ID")) with false.
    2:{ symmetry. apply bytes_eqb_false. intros E. rewrite E in Hnid. congruence. }
    destruct (Header_Set hd (hf_name f) (hf_val f)) as [hd'| | |]; cbn [bind]; auto.
    apply IH; auto. lia.
Qed.

Lemma parse_id_ok prefix id : clean_prefix prefix -> clean_id id ->
  parse_id prefix (60 :: prefix ++ id ++ [62]) = Ok id.
Proof.
  intros ((Hp0 & Hp13) & Hp62 & q & ->) ((Hi0 & Hi13) & Hi47 & Hi62). cbn [parse_id].
  replace ((q ++ [47]) ++ id ++ [62]) with (((q ++ [47]) ++ id) ++ 62 :: []) by (rewrite !app_assoc; auto).
  rewrite strchr_app by (rewrite in_app_iff; tauto).
  replace ((q ++ [47]) ++ id) with (q ++ 47 :: id) by (rewrite <- app_assoc; auto).
  rewrite strrchr_app by auto. rewrite bytes_eqb_refl. auto.
Qed.

Lemma parse_text v prefix id fs : v = "WARC/1.0" \/ v = "WARC/1.1" ->
  clean_prefix prefix -> clean_id id -> Forall ok_field fs ->
  Header_Parse prefix (str v ++ crlf ++ str "WARC-Record-ID: <" ++ prefix ++ id ++ [62] ++ crlf ++
                       concat (map field_line fs) ++ crlf) =
  run_hops (mkH id []) (map (fun f => HSet (hf_name f) (hf_val f)) fs).
Proof.
  intros Hv Hp Hi Hf. unfold Header_Parse.
  set (tail := concat (map field_line fs) ++ crlf).
  set (w := prefix ++ id ++ [62] ++ crlf ++ tail).
  assert (EG : (bytes_eqb (firstn (length (str "WARC/1.0" ++ crlf ++ str "WARC-Record-ID: <"))
       (str v ++ crlf ++ str "WARC-Record-ID: <" ++ w)) (str "WARC/1.0" ++ crlf ++ str "WARC-Record-ID: <") ||
       bytes_eqb (firstn (length (str "WARC/1.1" ++ crlf ++ str "WARC-Record-ID: <"))
       (str v ++ crlf ++ str "WARC-Record-ID: <" ++ w)) (str "WARC/1.1" ++ crlf ++ str "WARC-Record-ID: <")) = true).
  { destruct Hv as [-> | ->]; cbn; reflexivity. }
  rewrite EG. cbn [guard bind].
  assert (EP : strchr 10 (str v ++ crlf ++ str "WARC-Record-ID: <" ++ w) =
     Some (str v ++ [13], str "WARC-Record-ID: <" ++ w)).
  { replace (str v ++ crlf ++ str "WARC-Record-ID: <" ++ w) with ((str v ++ [13]) ++ 10 :: (str "WARC-Record-ID: <" ++ w)).
    - apply strchr_app. rewrite in_app_iff. destruct Hv as [-> | ->]; vm_compute; intuition discriminate.
    - rewrite <- app_assoc. auto. }
  rewrite EP. clear EG EP.
  set (p' := str "WARC-Record-ID: <" ++ w). cbn [parse_loop].
  assert (Ew : p' = (str "WARC-Record-ID" ++ 58 :: 32 :: (60 :: prefix ++ id ++ [62])) ++ 13 :: 10 :: tail).
  { unfold p', w. change (str "WARC-Record-ID: <") with (str "WARC-Record-ID" ++ [58; 32; 60]). repeat (rewrite <- !app_assoc || cbn [app crlf]). reflexivity. }
  assert (Hlen : (length fs < length p')%nat).
  { rewrite Ew. rewrite app_length. cbn [List.length]. unfold tail. rewrite (app_length (concat _)). unfold bytes in *.
    assert (length fs <= length (concat (map field_line fs)))%nat.
    { clear. induction fs as [|f fs IH]; simpl; [lia|]. rewrite app_length. unfold field_line at 1.
      rewrite !app_length. simpl. lia. }
    unfold bytes in *. rewrite (app_length (str _)). lia. }
  rewrite Ew in *. destruct Hp as ((Hp0 & Hp13) & Hp62 & q & Eq). destruct Hi as ((Hi0 & Hi13) & Hi47 & Hi62).
  rewrite strchr_app.
  2:{ rewrite in_app_iff. intros [H|H]; [vm_compute in H; intuition discriminate|].
      destruct H as [H|[H|[H|H]]]; try discriminate. rewrite !in_app_iff in H. destruct H as [H|[H|[H|[]]]]; auto; discriminate. }
  rewrite strchr_app by (vm_compute; intuition discriminate).
  rewrite bytes_eqb_refl.
  set (ln := str "WARC-Record-ID" ++ 58 :: 32 :: 60 :: prefix ++ id ++ [62]) in *.
  assert (exists x t, ln = x :: t) as (x & t & Eln) by (unfold ln; cbn; eauto).
  rewrite Eln in *. cbn [app]. 
  rewrite parse_id_ok.
  2:{ split; [split; auto|]. split; eauto. } 2:{ split; [split; auto|]. split; auto. }
  cbn [bind]. apply parse_fields; auto.
Qed.

Lemma set_append id l f : hsorted (l ++ [f]) -> ok_name (hf_name f) ->
  Header_Set (mkH id l) (hf_name f) (hf_val f) = Ok (mkH id (l ++ [f])).
Proof.
  intros Hs Hok. unfold Header_Set. replace (settable (hf_name f)) with true by (symmetry; apply settable_ok; auto).
  cbn [guard bind h_fields h_id].
  assert (G : forall g, In g l -> lex (lower (hf_name f)) (lower (hf_name g)) = Gt).
  { clear - Hs. induction l as [|x l IH]; intros g []; cbn [app] in Hs; apply StronglySorted_inv in Hs; destruct Hs as [Hl Hx].
    - subst. rewrite Forall_app in Hx. destruct Hx as [_ Hx]. apply Forall_cons_iff in Hx. destruct Hx as [Hx _].
      unfold name_lt in Hx. rewrite lex_antisym, Hx. auto.
    - apply IH; auto. }
  assert (E : take_field (hf_name f) l = (None, l)).
  { clear Hs. induction l as [|x l IH]; auto. cbn [take_field].
    replace (caseeq (hf_name f) (hf_name x)) with false.
    - rewrite IH; auto. intros g Hg. apply G. right; auto.
    - symmetry. apply caseeq_lower_f. intros E. assert (X := G x (or_introl eq_refl)). rewrite E, lex_refl in X. discriminate. }
  rewrite E.
  assert (E2 : place_field (hf_name f) (mkF (hf_name f) (hf_val f)) l = Ok (l ++ [mkF (hf_name f) (hf_val f)])).
  { clear Hs E. induction l as [|x l IH]; auto. cbn [place_field]. unfold casecmp. rewrite G by (left; auto).
    rewrite IH; auto. intros g Hg. apply G. right; auto. }
  rewrite E2. cbn [bind]. destruct f; auto.
Qed.

Lemma set_all id l2 : forall l1, hsorted (l1 ++ l2) -> Forall ok_field l2 ->
  run_hops (mkH id l1) (map (fun f => HSet (hf_name f) (hf_val f)) l2) = Ok (mkH id (l1 ++ l2)).
Proof.
  induction l2 as [|f l2 IH]; intros l1 Hs Hf.
  - rewrite app_nil_r. auto.
  - apply Forall_cons_iff in Hf. destruct Hf as [(Hn & _) Hf]. cbn [map run_hops].
    rewrite set_append; auto.
    + cbn [bind]. rewrite IH; auto; rewrite <- app_assoc; auto.
    + replace (l1 ++ f :: l2) with ((l1 ++ [f]) ++ l2) in Hs by (rewrite <- app_assoc; auto).
      clear - Hs. induction (l1 ++ [f]) as [|x l IH]; [constructor|]. cbn [app] in Hs.
      apply StronglySorted_inv in Hs. destruct Hs as [A B]. constructor; [apply IH; auto|]. apply Forall_app in B. apply B.
Qed.

Lemma parse_serialize prefix hd : clean_prefix prefix -> clean_id (h_id hd) ->
  hsorted (h_fields hd) -> Forall ok_field (h_fields hd) ->
  Header_Parse prefix (Header_Serialize prefix hd) = Ok hd.
Proof.
  intros Hp Hi Hs Hf. unfold Header_Serialize. rewrite (parse_text "WARC/1.1"); auto.
  rewrite (set_all (h_id hd) (h_fields hd) []); auto. destruct hd; auto.
Qed.

Lemma run_hops_fields ops : forall hd hd', hsorted (h_fields hd) ->
  Forall (fun o => ok_name (hop_name o)) ops -> Forall ok_field (h_fields hd) ->
  Forall (fun o => match o with HSet n v => clean n /\ clean v | HDel _ => True end) ops ->
  run_hops hd ops = Ok hd' -> Forall ok_field (h_fields hd').
Proof.
  induction ops as [|o ops IH]; intros hd hd' Hs Hok Hf Hc E.
  - cbn [run_hops] in E. injection E as <-. auto.
  - apply Forall_cons_iff in Hok, Hc. destruct Hok as [Ho Hok], Hc as [Hc1 Hc].
    destruct o as [n v|n]; cbn [hop_name] in Ho; cbn [run_hops] in E.
    + destruct (set_spec hd n v Hs Ho) as (hd1 & E1 & Hs1 & _ & _ & Hg). rewrite E1 in E. cbn [bind] in E.
      eapply IH; [| | | |exact E]; auto. apply Forall_forall. intros g Hin. destruct (Hg g Hin) as [[A _]|(A & B & C)].
      * rewrite Forall_forall in Hf. auto.
      * destruct Hc1 as [[_ Cn] [_ Cv]]. unfold ok_field. rewrite A. destruct C as [C|(f & Hf1 & C)]; rewrite C.
        -- auto.
        -- rewrite Forall_forall in Hf. destruct (Hf f Hf1) as (X & Y & _). auto.
    + destruct (del_spec hd n Hs Ho) as (hd1 & E1 & Hs1 & _ & _ & Hg). rewrite E1 in E. cbn [bind] in E.
      eapply IH; [| | | |exact E]; auto. apply Forall_forall. intros g Hin. rewrite Forall_forall in Hf. auto.
Qed.

(** * Property lemmas *)

Lemma hops_map id_size ops : Forall (fun o => ok_name (hop_name o)) ops ->
  exists hd, run_hops (Header_New id_size) ops = Ok hd /\
    (forall n, Header_Get hd n = outcome None ops n) /\ StronglySorted name_lt (h_fields hd).
Proof.
  intros H. destruct (run_hops_spec ops (Header_New id_size)) as (hd & E & Hs & _ & Hg); auto.
  { constructor. } exists hd. auto.
Qed.

Lemma hop_refused hd name val : ~ ok_name name ->
  Header_Set hd name val = Abort /\ Header_Delete hd name = Abort.
Proof.
  intros H. unfold Header_Set, Header_Delete. destruct (settable name) eqn:E; auto.
  apply settable_ok in E. contradiction.
Qed.

Lemma hops_roundtrip prefix id_size id ops :
  clean_prefix prefix -> clean_id id -> Forall (fun c => is_graph c = true) id -> len id = id_size ->
  Forall (fun o => ok_name (hop_name o)) ops ->
  Forall (fun o => match o with HSet n v => clean n /\ clean v | HDel _ => True end) ops ->
  exists hd hd', run_hops (Header_New id_size) ops = Ok hd /\ Header_Set_Id id_size hd id = Ok hd' /\
    Header_Get_Id hd' = id /\ h_fields hd' = h_fields hd /\
    Header_Parse prefix (Header_Serialize prefix hd') = Ok hd'.
Proof.
  intros Hp Hi Hg Hl Hn Hc.
  destruct (run_hops_spec ops (Header_New id_size)) as (hd & E & Hs & _ & _); auto. { constructor. }
  exists hd, (mkH id (h_fields hd)). split; auto. split.
  { unfold Header_Set_Id. replace (forallb is_graph id) with true by (symmetry; apply forallb_forall; apply Forall_forall; auto).
    cbn [guard bind]. rewrite Hl, N.leb_refl. cbn [guard bind]. rewrite firstn_all2; auto. unfold len in Hl. lia. }
  split; auto. split; auto. apply parse_serialize; auto. cbn [h_fields].
  eapply run_hops_fields; [| | | |exact E]; auto; constructor.
Qed.

Lemma concat_len_map {A} (f : A -> bytes) (l : list A) :
  len (concat (map f l)) = fold_right N.add 0 (map (fun x => len (f x)) l).
Proof.
  induction l as [|x l IH]; auto. cbn [map concat fold_right]. rewrite <- IH. unfold len. rewrite app_length. lia.
Qed.

Lemma serialized_len prefix hd :
  len (Header_Serialize prefix hd) =
  32 + len prefix + len (h_id hd) + fold_right N.add 0 (map (fun f => Header_Len (hf_name f) (hf_val f)) (h_fields hd)).
Proof.
  unfold Header_Serialize. assert (L := concat_len_map field_line (h_fields hd)).
  replace (fold_right N.add 0 (map (fun x => len (field_line x)) (h_fields hd)))
    with (fold_right N.add 0 (map (fun f => Header_Len (hf_name f) (hf_val f)) (h_fields hd))) in L.
  - rewrite <- L. unfold len. rewrite !app_length. unfold bytes.
    change (List.length (str "WARC/1.1")) with 8%nat. change (List.length (str "WARC-Record-ID: <")) with 17%nat.
    simpl List.length. lia.
  - f_equal. apply map_ext. intros f. unfold field_line, Header_Len, len. rewrite !app_length. simpl List.length. lia.
Qed.

Lemma set_grows prefix hd name val : hsorted (h_fields hd) -> ok_name name -> Header_Get hd name = None ->
  exists hd', Header_Set hd name val = Ok hd' /\
    len (Header_Serialize prefix hd') = len (Header_Serialize prefix hd) + Header_Len name val.
Proof.
  intros Hs Hok Hg. unfold Header_Set. replace (settable name) with true by (symmetry; apply settable_ok; auto).
  cbn [guard bind].
  assert (E : take_field name (h_fields hd) = (None, h_fields hd)).
  { unfold Header_Get in Hg. clear Hs. induction (h_fields hd) as [|x l IH]; auto. cbn [get_field] in Hg. cbn [take_field].
    destruct (caseeq name (hf_name x)); [discriminate|]. rewrite IH; auto. }
  rewrite E.
  assert (Hne : forall g, In g (h_fields hd) -> lower name <> lower (hf_name g)).
  { unfold Header_Get in Hg. clear Hs E. induction (h_fields hd) as [|x l IH]; intros g []; cbn [get_field] in Hg;
      destruct (caseeq name (hf_name x)) eqn:Ec; try discriminate.
    - subst. apply caseeq_lower_f; auto.
    - apply IH; auto. }
  assert (P : exists l', place_field name (mkF name val) (h_fields hd) = Ok l' /\
     fold_right N.add 0 (map (fun f => Header_Len (hf_name f) (hf_val f)) l') =
     fold_right N.add 0 (map (fun f => Header_Len (hf_name f) (hf_val f)) (h_fields hd)) + Header_Len name val).
  { clear Hs E Hg. induction (h_fields hd) as [|x l IH]; cbn [place_field].
    - eexists. split; [reflexivity|]. cbn [map fold_right hf_name hf_val]. lia.
    - unfold casecmp. destruct (lex _ _) eqn:Ec.
      + exfalso. apply lex_eq in Ec. apply (Hne x); auto. left; auto.
      + eexists. split; [reflexivity|]. cbn [map fold_right hf_name hf_val]. lia.
      + destruct IH as (l' & -> & El). { intros g Hg. apply Hne. right; auto. }
        eexists. split; [reflexivity|]. cbn [map fold_right]. lia. }
  destruct P as (l' & -> & El). cbn [bind]. eexists. split; [reflexivity|].
  rewrite !serialized_len. cbn [h_fields h_id]. lia.
Qed.

Lemma dec_value_undec s : dec_value s = undec s.
Proof.
  induction s as [|c s IH] using rev_ind; auto.
  rewrite dec_value_app. unfold undec. rewrite fold_left_app. cbn [fold_left]. fold (undec s). rewrite IH.
  cbn [dec_value]. change (10 ^ len [c]) with 10. change (10 ^ len (@nil N)) with 1. lia.
Qed.

Lemma number_roundtrip hd name n : hsorted (h_fields hd) -> ok_name name -> n < 2 ^ 63 ->
  exists hd', Header_Set hd name (dec n) = Ok hd' /\ Header_Get_Number hd' name = Ok (Z.of_N n).
Proof.
  intros Hs Hok Hn. destruct (set_spec hd name (dec n) Hs Hok) as (hd' & E & _ & _ & Hg & _).
  exists hd'. split; auto. unfold Header_Get_Number. rewrite Hg.
  destruct (list_eq_dec _ _ _) as [_|C]; [|contradiction].
  rewrite num_loop_digits; auto using dec_digits; [|reflexivity].
  rewrite dec_value_undec, undec_dec, N.mul_0_l, N.add_0_l.
  replace (n <? 2 ^ 63) with true by (symmetry; apply N.ltb_lt; auto). auto.
Qed.

Lemma number_exact hd name s : Header_Get hd name = Some s -> Forall (fun c => is_digit c = true) s ->
  Header_Get_Number hd name = if dec_value s <? 2 ^ 63 then Ok (Z.of_N (dec_value s)) else UB.
Proof.
  intros Hg Hd. unfold Header_Get_Number. rewrite Hg. rewrite (num_loop_digits s Hd 0) by reflexivity.
  rewrite N.mul_0_l, N.add_0_l. auto.
Qed.

Lemma dec_value_bound s : Forall (fun c => is_digit c = true) s -> dec_value s < 10 ^ len s.
Proof.
  induction s as [|c s IH]; intros H; [vm_compute; auto|]. apply Forall_cons_iff in H. destruct H as [Hc H].
  specialize (IH H). cbn [dec_value]. assert (HL : len (c :: s) = len s + 1) by (unfold len; simpl List.length; lia).
  rewrite HL, N.pow_add_r, N.pow_1_r. unfold is_digit in Hc. apply andb_prop in Hc. destruct Hc as [A B].
  apply N.leb_le in A, B. set (p := 10 ^ len s) in *. nia.
Qed.

Lemma number_refused hd name s : Header_Get hd name = Some s -> ~ Forall (fun c => is_digit c = true) s ->
  len s <= 19 -> Header_Get_Number hd name = Ok (-1)%Z.
Proof.
  intros Hg Hd Hl. unfold Header_Get_Number. rewrite Hg.
  destruct (num_loop_bad s 0 ltac:(reflexivity) Hd) as [H|(_ & a & b & E & Ha & Hv)]; auto. exfalso.
  assert (Hb := dec_value_bound a Ha). rewrite N.mul_0_l, N.add_0_l in Hv.
  assert (Hla : len a <= 18).
  { subst s. destruct b as [|x b]. { rewrite app_nil_r in Hd. contradiction. }
    unfold len in *. rewrite app_length in Hl. simpl List.length in Hl. lia. }
  assert (10 ^ len a <= 10 ^ 18) by (apply N.pow_le_mono_r; lia).
  change (10 ^ 18) with 1000000000000000000 in *. change (2 ^ 63) with 9223372036854775808 in Hv. lia.
Qed.

Lemma number_none hd name : Header_Get hd name = None -> Header_Get_Number hd name = Ok (-1)%Z.
Proof. intros H. unfold Header_Get_Number. rewrite H. auto. Qed.

(** * Identifiers *)

Lemma ident_text_inj r1 d1 r2 d2 : length d1 = length d2 ->
  r1 ++ [10] ++ d1 ++ [10] = r2 ++ [10] ++ d2 ++ [10] -> r1 = r2 /\ d1 = d2.
Proof.
  intros L E. rewrite !app_assoc in E. apply app_inj_tail in E. destruct E as [E _].
  assert (length r1 = length r2). { apply (f_equal (@List.length N)) in E. rewrite !app_length in E. simpl in E. lia. }
  rewrite <- !app_assoc in E. cbn [app] in E.
  assert (X : r1 = r2). { apply (f_equal (firstn (length r1))) in E. rewrite firstn_app, firstn_all, Nat.sub_diag in E.
    rewrite firstn_app, H, firstn_all, Nat.sub_diag in E. rewrite !app_nil_r in E. auto. }
  split; auto. subst. apply app_inv_head in E. congruence.
Qed.

Section Sha.
Variable sha256hex : bytes -> bytes.
Hypothesis sha_len : forall x, length (sha256hex x) = 64%nat.
Hypothesis sha_hex : forall x, Forall (fun c => is_hex c = true) (sha256hex x).

Lemma ident_payload id_size hd body typ :
  Header_Get hd (str "WARC-Type") = Some typ ->
  typ = str "resource" \/ typ = str "continuation" \/ typ = str "warcinfo" ->
  Ident_Create sha256hex id_size hd (sha256hex body) = Ok (firstn (N.to_nat id_size) (sha256hex body)).
Proof.
  intros Ht Hc. unfold Ident_Create. rewrite Ht. destruct Hc as [-> | [-> | ->]]; reflexivity.
Qed.

Lemma ident_meta id_size hd body ref :
  Header_Get hd (str "WARC-Type") = Some (str "metadata") -> Header_Get hd (str "WARC-Refers-To") = Some ref ->
  Ident_Create sha256hex id_size hd (sha256hex body) =
  Ok (firstn (N.to_nat id_size) (sha256hex (ref ++ [10] ++ sha256hex body ++ [10]))).
Proof. intros Ht Hr. unfold Ident_Create. rewrite Ht, Hr. reflexivity. Qed.

Lemma ident_valid id_size hd body id : id_size <= 64 ->
  Ident_Create sha256hex id_size hd (sha256hex body) = Ok id ->
  Forall (fun c => is_hex c = true) id /\ len id = id_size.
Proof.
  intros Hs. unfold Ident_Create. destruct (Header_Get hd (str "WARC-Type")) as [typ|]; [|discriminate].
  assert (P : forall x, Forall (fun c => is_hex c = true) (firstn (N.to_nat id_size) (sha256hex x)) /\ len (firstn (N.to_nat id_size) (sha256hex x)) = id_size).
  { intros x. split.
    - apply Forall_forall. intros c Hc. assert (H := sha_hex x). rewrite Forall_forall in H. apply H.
      rewrite <- (firstn_skipn (N.to_nat id_size)). apply in_or_app. auto.
    - unfold len. rewrite firstn_length, sha_len. lia. }
  destruct (bytes_eqb typ (str "resource")); [cbn [bind]; intros [= <-]; apply P|].
  destruct (bytes_eqb typ (str "continuation")); [cbn [bind]; intros [= <-]; apply P|].
  destruct (bytes_eqb typ (str "warcinfo")); [cbn [bind]; intros [= <-]; apply P|].
  destruct (bytes_eqb typ (str "metadata")); [|cbn [bind]; discriminate].
  destruct (Header_Get hd (str "WARC-Refers-To")) as [ref|]; cbn [bind]; [|discriminate].
  intros [= <-]. apply P.
Qed.
End Sha.
