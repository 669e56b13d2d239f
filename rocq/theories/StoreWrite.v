(* The functions of wsilo.c and warcinfo.c. *)
From Coq Require Import String Permutation.
From Coq Require Import ZifyBool ZifyNat ZifyN.
From Verif Require Import Base BaseLemmas ListLemmas IndexModel IndexSpec HeaderModel HeaderSpec HeaderProofs
  InflateSpec InflateProofs GzipModel GzipSpec GzipProofs ProgModel StoreModel StoreSpec StoreSysModel StoreWp StoreSys StoreHdr.
Open Scope string_scope.
Open Scope list_scope.
Open Scope N_scope.

Definition quiet (C : conf) (L : zlib) (s : fs) (n : N) : Prop := settled C L (f_silo s n) n (entries s n).
Definition mine (C : conf) (L : zlib) (s : fs) (n : N) (hb : bytes) : Prop := f_hold s n = Some hb /\ quiet C L s n.

Lemma mine_rely C L own s s' n hb : In n own -> mine C L s n hb -> rely own s s' -> mine C L s' n hb.
Proof.
  intros Hn (H & Q) (R & _). destruct (R n Hn) as (A & B & E). split; [congruence|]. unfold quiet in *. rewrite A.
  eapply settled_perm; [|exact Q]. apply Permutation_sym. auto.
Qed.

Lemma settled_un C L so h n es : settled C L so n es -> unsettled C L so h n es.
Proof.
  unfold settled, unsettled. destruct so as [[b w]|]; intros H.
  - exists es, []. rewrite app_nil_r. repeat split; auto. exists b, []. rewrite app_nil_r. auto.
  - exists [], []. repeat split; auto. subst. auto.
Qed.

(* a hold may be changed while nothing is in the index about it *)
Lemma inv_hold C L s n h : inv C L s -> quiet C L s n -> inv C L (set_hold s n h).
Proof.
  intros ((A1 & A2 & A3) & B) Q. split; auto. split; [|split]; auto.
  intros m. specialize (A1 m). cbn [set_hold f_hold f_silo]. change (entries (set_hold s n h) m) with (entries s m).
  destruct (N.eq_dec m n) as [->|X].
  - rewrite upd_same. destruct h; auto. apply settled_un. auto.
  - rewrite upd_other by auto. auto.
Qed.

Lemma quiet_hold C L s n h m : quiet C L s m -> quiet C L (set_hold s n h) m.
Proof. auto. Qed.

Definition roc (c : call) : bool :=
  match c with
  | CTime | CStat _ | CStatHold _ | CRead _ _ _ | COpen _ | CSeekEnd _ | CReadCache | CIdxIter _ | CReadSilo _ => true
  | _ => false
  end.

Section Rules.
Variable C : conf.
Variable L : zlib.
Variable D : death -> Prop.
Notation wpD := (wp (inv C L) D).

Lemma wp_ro {B} (Q : B -> list N -> fs -> Prop) own s c f : roc c = true ->
  (forall s1, rely own s s1 -> inv C L s1 -> wpD Q own s1 (f (snd (exec c s1)))) ->
  wpD Q own s (bindp (sys c) f).
Proof.
  intros Hc H. apply wp_sys. intros s1 R I.
  assert (E : fst (exec c s1) = s1) by (destruct c; try discriminate; auto).
  rewrite E. split; [|split; [|split]]; auto.
  - destruct c; try discriminate; exact Logic.I.
  - intros s' T. destruct T; discriminate.
  - specialize (H s1 R I). destruct c; try discriminate; exact H.
Qed.

Lemma wp_time {B} (Q : B -> list N -> fs -> Prop) own s f :
  (forall s1 d, rely own s s1 -> date_ok d -> wpD Q own s1 (f d)) ->
  wpD Q own s (bindp (sys CTime) f).
Proof. intros H. apply wp_ro; auto. intros s1 R (I & Dt). apply H; auto. Qed.

Lemma wp_write {B} (Q : B -> list N -> fs -> Prop) s n hb d f : mine C L s n hb ->
  (forall s1, mine C L s1 n (hb ++ d) -> wpD Q [n] s1 (f tt)) ->
  wpD Q [n] s (bindp (sys (CWrite n d)) f).
Proof.
  intros M H. apply wp_sys. intros s1 R I. apply (mine_rely C L [n] s s1) in M; auto; [|left; auto]. destruct M as (M & Qu).
  split; [left; auto|]. split; [|split].
  - intros s' T. inversion T; subst. cbn [exec fst]. apply inv_hold; auto.
  - cbn [exec fst]. apply inv_hold; auto.
  - cbn [exec fst snd own_after]. apply H. split; auto. cbn [set_hold f_hold]. rewrite upd_same. unfold hold_of. rewrite M. auto.
Qed.

Lemma wp_pwrite {B} (Q : B -> list N -> fs -> Prop) s n hb off d f : mine C L s n hb ->
  (forall s1, rely [] s s1 -> mine C L s1 n (file_write hb off d) -> wpD Q [n] s1 (f tt)) ->
  wpD Q [n] s (bindp (sys (CPwrite n off d)) f).
Proof.
  intros M H. apply wp_sys. intros s1 R I. apply (mine_rely C L [n] s s1) in M; auto; [|left; auto]. destruct M as (M & Qu).
  split; [left; auto|]. split; [|split].
  - intros s' T. inversion T; subst. cbn [exec fst]. apply inv_hold; auto.
  - cbn [exec fst]. apply inv_hold; auto.
  - cbn [exec fst snd own_after]. apply H.
    + apply (rely_trans _ s s1); [eapply rely_nil; exact R|]. apply (exec_rely [n] [] s1 (CPwrite n off d)); [left; auto|intros m []].
    + split; auto. cbn [set_hold f_hold]. rewrite upd_same. unfold hold_of. rewrite M. auto.
Qed.

Lemma wp_read {B} (Q : B -> list N -> fs -> Prop) own s n hb off k f : In n own -> mine C L s n hb ->
  (forall s1, rely own s s1 -> mine C L s1 n hb -> wpD Q own s1 (f (file_read hb off k))) ->
  wpD Q own s (bindp (sys (CRead n off k)) f).
Proof.
  intros Hn M H. apply wp_ro; auto. intros s1 R I. apply (mine_rely C L own s s1) in M; auto.
  cbn [exec snd]. unfold hold_of. destruct M as (M & Qu). rewrite M. apply H; auto. split; auto.
Qed.

Lemma wp_unlink {B} (Q : B -> list N -> fs -> Prop) own s n f : In n own -> quiet C L s n ->
  (forall s1, rely (rm n own) s s1 -> wpD Q (rm n own) s1 (f tt)) ->
  wpD Q own s (bindp (sys (CUnlink n)) f).
Proof.
  intros Hn M H. apply wp_sys. intros s1 R I.
  assert (Qu : quiet C L s1 n).
  { destruct R as (R & _). destruct (R n Hn) as (A & B' & E). unfold quiet in *. rewrite A. eapply settled_perm; [|exact M].
    apply Permutation_sym. auto. }
  split; [auto|]. split; [|split].
  - intros s' T. inversion T.
  - cbn [exec fst]. apply inv_hold; auto.
  - cbn [exec fst snd own_after]. apply H. apply (rely_trans _ s s1).
    + eapply rely_mono; [|exact R]. intros m Hm. apply in_remove in Hm. tauto.
    + split; [|split].
      * intros m Hm. apply in_remove in Hm. cbn [set_hold f_silo f_hold]. rewrite upd_other by tauto. auto.
      * intros m b w E. exists [], w. rewrite app_nil_r. auto.
      * exists []. rewrite app_nil_r. auto.
Qed.

(* a new hold *)
Lemma wp_creat {B} (Q : B -> list N -> fs -> Prop) own s n f : (forall m, In m own -> f_hold s m <> None) ->
  (forall s1, rely own s s1 -> inv C L s1 -> wpD Q own s1 (f false)) ->
  (forall s1, rely own s s1 -> ~ In n own -> mine C L s1 n [] -> wpD Q (n :: own) s1 (f true)) ->
  wpD Q own s (bindp (sys (CCreat n)) f).
Proof.
  intros Ho H1 H2. apply wp_sys. intros s1 R I. split; [exact Logic.I|]. split; [intros s' T; inversion T|].
  cbn [exec]. destruct (f_hold s1 n) eqn:E; cbn [fst snd own_after]; [split; auto|].
  pose proof I as ((A1 & _) & _). specialize (A1 n). rewrite E in A1.
  split; [apply inv_hold; auto|].
  assert (Hn : ~ In n own).
  { intros X. destruct R as (R & _). destruct (R n X) as (_ & Y & _). apply Ho in X. congruence. }
  apply H2; auto.
  - apply (rely_trans _ s s1 _ R). split; [|split].
    + intros m Hm. cbn [set_hold f_silo f_hold]. rewrite upd_other; [auto|]. congruence.
    + intros m b w F. exists [], w. rewrite app_nil_r. auto.
    + exists []. rewrite app_nil_r. auto.
  - split; [|exact A1]. cbn [set_hold f_hold]. apply upd_same.
Qed.
End Rules.

Lemma space_le C sl k : (Z.of_N k <= Wsilo_GetSpace C sl)%Z -> w_len sl + k <= c_max C /\ (w_buf sl = true -> k <= BUFLEN) /\ (k > 0 -> w_buf sl = true).
Proof.
  unfold Wsilo_GetSpace. intros H. destruct (w_buf sl); destruct (_ <? _)%Z eqn:E; split; try split; intros; lia.
Qed.

Lemma wp_grow {A} C L D (Q : A -> list N -> fs -> Prop) own s p :
  wp (inv C L) D Q own s p -> wp (inv C L) D (fun a o s' => Q a o s' /\ rely [] s s') own s p.
Proof.
  intros H. pose proof (wp_frame (inv C L) D Q p own [] s) as W. rewrite app_nil_r in W.
  eapply wp_conseq; [|apply W; [intros n []|exact H]]. cbn beta. intros a o s' (o1 & -> & H1 & R & _).
  rewrite app_nil_r. auto.
Qed.

Lemma cache_rely C own s s' c : cache_ok C s c -> rely own s s' -> cache_ok C s' c.
Proof.
  intros (H1 & H2 & H3 & H4) (_ & R & _). split; [auto|split; [auto|split]].
  - intros n Hn. apply H3 in Hn. destruct (f_silo s n) as [[b w]|] eqn:E; [|tauto].
    destruct (R _ _ _ E) as (t & w' & E' & _). congruence.
  - intros n Hn. destruct (H4 n Hn) as (b & w & E & X). destruct (R _ _ _ E) as (t & w' & E' & _).
    exists (b ++ t), w'. split; auto. rewrite len_app. lia.
Qed.

Lemma cache_0 C s : cache_ok C s (0, 0).
Proof. split; [reflexivity|split; [reflexivity|]]. cbn [fst snd]. split; intros n Hn; lia. Qed.

Section Silo.
Variable C : conf.
Variable L : zlib.
Hypothesis CO : conf_ok C.
Hypothesis ZO : zlib_ok L.
Variable D : death -> Prop.
Hypothesis DA : D DAbort.
Hypothesis DF : D DFuel.
Notation wpD := (wp (inv C L) D).
Notation prefix := (c_prefix C).

Lemma wp_put {B} (Q : B -> list N -> fs -> Prop) n s sl hb d f : w_no sl = n -> mine C L s n hb -> w_len sl = len hb ->
  (forall s1 sl', mine C L s1 n (hb ++ d) -> len (hb ++ d) <= c_max C ->
     sl' = mkW n (w_idx sl) (len (hb ++ d)) (w_start sl) (w_hlen sl) (w_buf sl) (w_wid sl) ->
     wpD Q [n] s1 (f sl')) ->
  wpD Q [n] s (bindp (put C sl d) f).
Proof.
  intros <- M E H. unfold put, Wsilo_Store. apply wp_bind. apply wp_assert; auto. intros A1. apply wp_assert; auto. intros A2.
  apply wp_assert; auto. intros A3. apply wp_assert; auto. intros A4.
  apply (wp_write _ _ _ _ _ _ hb); auto. intros s1 M1. cbn [wp]. apply H; auto.
  - rewrite len_app. destruct (space_le C sl (len d)); lia.
  - f_equal. rewrite len_app. lia.
Qed.

Lemma body_bytes n : n < 2 ^ 32 -> is_bytes (warcinfo_body C (c_base C n)).
Proof.
  intros HN. destruct (co_base C CO n HN) as (_ & B & _). destruct (co_body C CO) as (B1 & B2). unfold warcinfo_body.
  assert (S : forall s, is_bytes (str s)).
  { intros s. induction s as [|a s IH]; cbn [str]; constructor; auto. pose proof (Ascii.N_ascii_bounded a). lia. }
  assert (K : is_bytes crlf) by (repeat constructor).
  apply Forall_app. split; [apply S|]. apply Forall_app. split; [exact B|]. apply Forall_app. split; [exact K|].
  apply Forall_app. split; [exact B1|]. apply Forall_app. split; [apply S|]. apply Forall_app. split; [exact K|].
  apply Forall_app. split; [apply S|]. apply Forall_app. split; [exact K|]. apply Forall_app. split; [apply S|].
  apply Forall_app. split; [exact B2|]. apply Forall_app. split; [apply S|exact K].
Qed.

(* the first record of a silo *)
Definition winfo (n : N) (r id : bytes) : Prop := exists w,
  record C L r w /\ has (wr_hdr w) "WARC-Type" (str "warcinfo") /\ has (wr_hdr w) "WARC-Filename" (c_base C n) /\
  hasnt (wr_hdr w) "WARC-Segment-Number" /\ h_id (wr_hdr w) = id /\
  24 <= len r <= 2 * len (warcinfo_body C (c_base C n)) + 4500.

Lemma goodval_sha d : goodval (str "sha256:" ++ z_sha L d).
Proof. apply goodval_app; [apply goodb_val; reflexivity|]. apply goodval_hex. apply sha_hex. auto. Qed.

Lemma len_sha d : len (z_sha L d) = 64.
Proof. apply (zo_sha L ZO d). Qed.

Lemma dec_len n : n < 2 ^ 64 -> len (dec n) <= 20.
Proof.
  intros H. unfold dec. 
  assert (G : forall f m k, m < 10 ^ k -> len (dec_aux f m []) <= N.max k 1).
  { induction f as [|f IH]; intros m k Hm; cbn [dec_aux]; [rewrite len_nil; lia|].
    destruct (m <? 10) eqn:E; [rewrite len_cons, len_nil; lia|]. rewrite dec_aux_app, len_app, len_cons, len_nil.
    destruct (N.eq_dec k 0) as [->|K]; [rewrite N.pow_0_r in Hm; lia|].
    destruct (N.eq_dec k 1) as [->|K1]; [rewrite N.pow_1_r in Hm; lia|].
    assert (m / 10 < 10 ^ (k - 1)).
    { apply N.div_lt_upper_bound; [lia|]. replace (10 * 10 ^ (k - 1)) with (10 ^ k); auto.
      rewrite <- N.pow_succ_r'. f_equal. lia. }
    specialize (IH (m / 10) (k - 1) H0). lia. }
  specialize (G (S (N.to_nat (N.log2 n))) n 20). change (N.max 20 1) with 20 in G. apply G.
  eapply N.lt_trans; [exact H|]. reflexivity.
Qed.

Lemma hgood_new : hgood (Header_New (c_idsize C)).
Proof. split; constructor. Qed.

Lemma hlen_new : hlen prefix (Header_New (c_idsize C)) = 32 + len prefix + c_idsize C.
Proof. rewrite hlen_eq. cbn [Header_New h_id h_fields]. unfold fsum. cbn [map fold_right]. unfold len at 2. rewrite repeat_length. lia. Qed.

Lemma len_str_app s v : len (str s ++ v) = N.of_nat (String.length s) + len v.
Proof. rewrite len_app. f_equal. induction s; cbn [str String.length]; [auto|]. rewrite len_cons. lia. Qed.
Lemma len_str s : len (str s) = N.of_nat (String.length s).
Proof. rewrite <- (app_nil_r (str s)), len_str_app, len_nil. lia. Qed.

Ltac hstep := match goal with
  | |- wp _ _ _ _ _ (bindp (hset ?h ?n ?v) _) =>
    let h' := fresh "h" in let E := fresh "E" in let G := fresh "G" in let I := fresh "I" in
    let GG := fresh "GG" in let LL := fresh "LL" in
    destruct (hset_ret prefix h n v) as (h' & E & G & I & GG & LL);
    [auto | reflexivity | auto | rewrite E; cbn [bindp]; clear E; unfold Header_Len in LL; rewrite ?len_str in LL;
      cbn [String.length] in LL]
  end.

Lemma Warcinfo_New_ok s n : n < 2 ^ 32 -> mine C L s n [] ->
  wpD (fun sl own s1 => own = [n] /\ exists r, winfo n r (w_wid sl) /\ mine C L s1 n r /\ len r <= c_max C /\
         sl = mkW n 0 (len r) 0 0 true (w_wid sl)) [n] s
      (Warcinfo_New C L (mkW n 0 0 0 0 true []) n).
Proof.
  intros HN M. unfold Warcinfo_New. set (fn := c_base C n). set (body := warcinfo_body C fn).
  destruct (co_base C CO n HN) as (B1 & B2 & B3). fold fn in B1, B2, B3. destruct (co_prefix C CO) as (P1 & P2 & P3).
  pose proof (co_idsize C CO) as IS. pose proof (co_room C CO n HN) as RM. fold fn in RM. fold body in RM. pose proof (co_max C CO) as MX.
  pose proof hgood_new as G0. assert (GF : goodval fn) by (split; auto).
  hstep. apply wp_time. intros s1 d R (D1 & D2 & D3). apply (mine_rely C L [n] s s1) in M; auto; [|left; auto]. clear R s.
  assert (GD : goodval d) by (split; auto). hstep.
  assert (GW : goodval (str "warcinfo")) by (apply goodb_val; reflexivity). hstep.
  assert (GA : goodval (str "application/warc-fields")) by (apply goodb_val; reflexivity). hstep.
  pose proof (goodval_dec (len body)) as GL. hstep. pose proof (goodval_sha body) as GS. hstep.
  pose proof (ident_set_res L C h4 (z_sha L body) None) as NU.
  destruct (Ident_Set (z_sha L) prefix (c_idsize C) h4 (z_sha L body) None) as [hd| | |] eqn:EI; cbn [lift bindp wp]; auto; try contradiction.
  apply ident_set_cases in EI; auto. destruct EI as (EF & x & EX & _ & Ex2).
  assert (GH : hgood hd) by (unfold hgood; rewrite EF; auto).
  assert (HH : forall m, hget hd m = hget h4 m) by (intros m; unfold hget, Header_Get; rewrite EF; auto).
  assert (IG : idgood (h_id hd)) by (rewrite EX; apply hex_id; apply forall_firstn; apply sha_hex; auto).
  assert (LI : len (h_id hd) = c_idsize C) by (rewrite EX; apply ident_len; auto; apply len_sha).
  assert (LH : hlen prefix hd <= 1800).
  { rewrite hlen_eq, EF, LI. rewrite hlen_eq in LL4. pose proof (dec_len (len body) ltac:(lia)). rewrite len_str_app in LL4. cbn [String.length] in LL4.
    rewrite len_sha in LL4. rewrite hlen_new in LL. rewrite I4, I3, I2, I1, I0, I in LL4. cbn [Header_New h_id] in LL4. unfold len at 2 in LL4. rewrite repeat_length in LL4. lia. }
  destruct (vsb_cases L ZO 0 body (body_bytes n HN)) as [EB|(bgz & EB & GB & LB & AB & _)]; [lia|rewrite EB; cbn [lift bindp wp]; auto|].
  rewrite EB. cbn [lift bindp].
  destruct (hser_cases C L CO ZO 0 hd GH (proj2 IG)) as [EH|(hgz & EH & GZ & LZ & _)]; [lia|rewrite EH; cbn [bindp wp]; auto|].
  rewrite EH. cbn [bindp].
  apply (wp_put _ n _ _ []); auto. intros s2 sl2 M2 L2 ->. cbn [w_no w_idx w_len w_start w_hlen w_buf w_wid app] in *.
  apply (wp_put _ n _ _ hgz); auto. intros s3 sl3 M3 L3 ->. cbn [w_no w_idx w_len w_start w_hlen w_buf w_wid] in *.
  apply (wp_put _ n _ _ (hgz ++ bgz)); auto. intros s4 sl4 M4 L4 ->. cbn [w_no w_idx w_len w_start w_hlen w_buf w_wid] in *.
  cbn [wp w_wid]. split; [auto|]. exists ((hgz ++ bgz) ++ crnlcrnl). split; [|split; [auto|split; [auto|reflexivity]]].
  exists (mkRec hd body). cbn [wr_hdr wr_data].
  assert (W1 : has hd "WARC-Type" (str "warcinfo")).
  { apply has_get; [apply GH|]. rewrite HH, GG4. names. rewrite GG3. names. rewrite GG2. names. rewrite GG1. names. auto. }
  split; [|split; [auto|split; [|split; [|split]]]].
  - exists hgz, bgz. rewrite <- app_assoc. split; [auto|]. cbn [wr_hdr wr_data]. split.
    { split; (apply has_get; [apply GH|]; rewrite HH, GG4; names; auto). rewrite GG3. names. auto. }
    split.
    { split; [intros W2; cbn [wr_hdr] in W2; apply has_get in W1; [|apply GH]; apply has_get in W2; [|apply GH]; rewrite W1 in W2; discriminate|]. split; [|exact LI].
      right. left. cbn [wr_hdr wr_data]. split; [auto|]. split; [|rewrite EX, Ex2; auto].
      - apply hasnt_get. rewrite HH, GG4. names. rewrite GG3. names. rewrite GG2. names. rewrite GG1. names.
        rewrite GG0. names. rewrite GG. names. reflexivity.
      - rewrite GG4. names. rewrite GG3. names. rewrite GG2. names. rewrite GG1. names. discriminate. }
    split; [auto|]. split; [apply good_wf; auto|].
    split; [lia|]. split; [rewrite <- ser_text; change (hlen prefix hd <= 4096); lia|]. auto.
  - apply has_get; [apply GH|]. rewrite HH, GG4. names. rewrite GG3. names. rewrite GG2. names. rewrite GG1. names.
    rewrite GG0. names. rewrite GG. names. auto.
  - apply hasnt_get. rewrite HH, GG4. names. rewrite GG3. names. rewrite GG2. names. rewrite GG1. names.
    rewrite GG0. names. rewrite GG. names. reflexivity.
  - reflexivity.
  - rewrite !len_app. change (len crnlcrnl) with 24. fold fn. fold body.
    assert (len body / 64 <= len body) by (apply N.div_le_upper_bound; lia). lia.
Qed.

(* a silo with only its first record *)
Definition fresh (s : fs) (sl : wsilo) : Prop := exists r,
  winfo (w_no sl) r (w_wid sl) /\ mine C L s (w_no sl) r /\ len r <= c_max C /\
  sl = mkW (w_no sl) 0 (len r) 0 0 true (w_wid sl) /\ w_no sl < 2 ^ 32 - 1.

Lemma Wsilo_New_ok s n : n < 2 ^ 32 - 1 ->
  wpD (fun x own s1 => match x with
                       | None => own = []
                       | Some sl => own = [w_no sl] /\ fresh s1 sl
                       end) [] s (Wsilo_New C L n).
Proof.
  intros Hn. unfold Wsilo_New. apply wp_ro; auto. intros s1 _ _. cbn [exec snd].
  destruct (f_silo s1 n) as [[b w]|]; [cbn [wp]; auto|].
  apply wp_ro; auto. intros s2 _ _. cbn [exec snd]. destruct (f_hold s2 n); [cbn [wp]; auto|].
  apply wp_creat; [intros m []|cbn [negb wp]; auto|]. intros s3 _ _ M. cbn [negb].
  eapply wp_seq; [apply Warcinfo_New_ok; [lia|exact M]|]. cbn beta. intros sl own s4 (-> & r & W & M4 & L4 & E).
  cbn [wp]. assert (En : w_no sl = n) by (rewrite E; auto). split; [congruence|]. exists r. rewrite En. auto.
Qed.

Lemma next_loop_ok fuel : forall s n,
  wpD (fun sl own s1 => own = [w_no sl] /\ fresh s1 sl) [] s (next_loop C L fuel n).
Proof.
  induction fuel as [|fu IH]; intros s n; cbn [next_loop]; [auto|].
  destruct (2 ^ 32 - 1 <=? n) eqn:E; [cbn [wp]; auto|].
  eapply wp_seq; [apply Wsilo_New_ok; lia|]. cbn beta. intros [sl|] own s1 H.
  - cbn [wp]. auto.
  - subst own. apply IH.
Qed.

Lemma ReadCache_ok s own aa : cache_ok C s aa ->
  wpD (fun c o s1 => o = own /\ cache_ok C s1 c) own s (ReadCache aa).
Proof.
  intros H. unfold ReadCache. apply wp_ro; auto. intros s1 R I. cbn [exec snd wp]. split; auto.
  destruct (f_cache s1) as [c|] eqn:E.
  - apply I. auto.
  - eapply cache_rely; eauto.
Qed.

Lemma Wsilo_Next_ok s aa : cache_ok C s aa ->
  wpD (fun x own s1 => cache_ok C s1 (fst x) /\ own = [w_no (snd x)] /\ fresh s1 (snd x)) [] s (Wsilo_Next C L aa).
Proof.
  intros H. unfold Wsilo_Next. eapply wp_seq; [apply ReadCache_ok; exact H|]. cbn beta. intros c o s1 (-> & Hc).
  eapply wp_seq; [apply wp_grow; apply next_loop_ok|]. cbn beta. intros sl own s2 ((-> & F) & R). cbn [wp fst snd].
  split; [eapply cache_rely; eauto|]. auto.
Qed.

Lemma Wsilo_Store_wp n s sl hb d : w_no sl = n -> mine C L s n hb -> w_len sl = len hb ->
  wpD (fun sl' own s1 => own = [n] /\ 0 < len d /\ mine C L s1 n (hb ++ d) /\
     sl' = mkW n (w_idx sl) (len (hb ++ d)) (w_start sl) (w_hlen sl) (w_buf sl) (w_wid sl)) [n] s (Wsilo_Store sl d).
Proof.
  intros <- M E. unfold Wsilo_Store. apply wp_assert; auto. intros A1. apply wp_assert; auto. intros A2.
  apply (wp_write _ _ _ _ _ _ hb); auto. intros s1 M1. cbn [wp]. split; [auto|]. split; [lia|]. split; [auto|].
  f_equal. rewrite len_app. lia.
Qed.

Lemma Wsilo_Store_ok {B} (Q : B -> list N -> fs -> Prop) n s sl hb d f : w_no sl = n -> mine C L s n hb -> w_len sl = len hb ->
  (forall s1 sl', 0 < len d -> mine C L s1 n (hb ++ d) ->
     sl' = mkW n (w_idx sl) (len (hb ++ d)) (w_start sl) (w_hlen sl) (w_buf sl) (w_wid sl) ->
     wpD Q [n] s1 (f sl')) ->
  wpD Q [n] s (bindp (Wsilo_Store sl d) f).
Proof.
  intros Hn M E H. eapply wp_seq; [apply (Wsilo_Store_wp n s sl hb d); auto|]. cbn beta. intros sl' o s1 (-> & A & B' & E'). auto.
Qed.

(* a silo with its first record and the space for the header of the second *)
Definition opened (sl : wsilo) (hb out : bytes) : Prop := exists wr hp,
  hb = wr ++ hp ++ out /\ winfo (w_no sl) wr (w_wid sl) /\ len hp <= 3800 /\
  w_start sl = len wr /\ w_hlen sl = len hp /\ w_len sl = len hb /\ w_buf sl = true /\ w_no sl < 2 ^ 32 - 1.

Lemma Wsilo_Header_ok s sl hd pad t : fresh s sl -> hgood hd -> is_bytes (h_id hd) -> hlen prefix hd <= 3000 ->
  pad <= 300 -> hget hd "WARC-Type" = Some t -> t <> str "warcinfo" ->
  wpD (fun sl' own s1 => own = [w_no sl] /\ w_no sl' = w_no sl /\ w_idx sl' = type_flag t /\
         exists hb, mine C L s1 (w_no sl) hb /\ opened sl' hb [] /\ len hb + 76 <= c_max C) [w_no sl] s
      (Wsilo_Header C L sl hd pad).
Proof.
  intros (r & W & M & Lr & E & Hn) GH GI LH LP HT NW. unfold Wsilo_Header.
  set (pad' := if 0 <? pad then pad + Header_Len (str "z") (str "_") else pad).
  assert (P' : pad' <= 306) by (unfold pad'; change (Header_Len (str "z") (str "_")) with 6; destruct (0 <? pad); lia). clearbody pad'.
  apply wp_assert; auto. intros A1.
  replace (Header_Get hd (str "WARC-Type")) with (Some t) by auto.
  set (idx := if bytes_eqb t (str "resource") then _ else _).
  assert (Ei : idx = type_flag t).
  { unfold idx, type_flag. rewrite E. cbn [w_idx]. destruct (bytes_eqb t (str "warcinfo")) eqn:X0; [apply bytes_eqb_true in X0; congruence|].
    destruct (bytes_eqb t (str "resource")) eqn:X1; destruct (bytes_eqb t (str "metadata")) eqn:X2; auto.
    apply bytes_eqb_true in X1, X2. rewrite X1 in X2. discriminate. }
  clearbody idx. subst idx.
  destruct (hser_cases C L CO ZO 0 hd GH GI) as [EH|(v2 & EH & GZ & LZ & _)]; [lia|rewrite EH; cbn [bindp wp]; auto|].
  rewrite EH. cbn [bindp]. apply wp_assert; auto. intros A2. apply wp_assert; auto. intros A3.
  destruct sl as [no ix ln st hl bf wid]. cbn [w_no w_idx w_len w_start w_hlen w_buf w_wid] in *.
  assert (ix = 0 /\ ln = len r /\ st = 0 /\ hl = 0 /\ bf = true) as (-> & -> & -> & -> & ->) by (repeat split; congruence). clear E.
  apply (Wsilo_Store_ok _ no _ _ r); auto. intros s1 sl1 _ M1 ->. cbn [w_no w_idx w_len w_start w_hlen w_buf w_wid] in *.
  apply wp_assert; auto. intros A4.
  eapply wp_conseq; [|apply (Wsilo_Store_wp no _ _ (r ++ v2)); auto]. cbn beta. intros sl2 o s2 (-> & _ & M2 & ->).
  cbn [w_no w_idx w_len w_start w_hlen w_buf w_wid] in *.
  split; [auto|]. split; [auto|]. split; [auto|]. exists ((r ++ v2) ++ repeat 95 (N.to_nat pad')). split; [auto|].
  assert (Lp : len (repeat 95 (N.to_nat pad')) = pad') by (unfold len; rewrite repeat_length; lia).
  destruct W as (w & W). pose proof W as (_ & _ & _ & _ & _ & Lw). pose proof (co_room C CO no ltac:(lia)). split.
  - exists r, (v2 ++ repeat 95 (N.to_nat pad')). rewrite !len_app, Lp. cbn [w_no w_idx w_len w_start w_hlen w_buf w_wid].
    rewrite app_nil_r, <- app_assoc. split; [auto|]. split; [exists w; exact W|]. repeat split; auto; lia.
  - rewrite !len_app, Lp. lia.
Qed.
End Silo.
