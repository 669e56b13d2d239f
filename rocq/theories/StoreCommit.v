(* Wsilo_Finish and Wsilo_Commit. *)
From Coq Require Import String Permutation.
From Coq Require Import ZifyBool ZifyNat ZifyN.
From Verif Require Import Base BaseLemmas ListLemmas IndexModel IndexSpec HeaderModel HeaderSpec HeaderProofs
  InflateSpec InflateProofs GzipModel GzipSpec GzipProofs ProgModel StoreModel StoreSpec StoreSysModel StoreWp StoreSys StoreHdr
  StoreWrite.
Open Scope string_scope.
Open Scope list_scope.
Open Scope N_scope.

Lemma read_at (a d r : bytes) o k : o = len a -> k = len d -> file_read (a ++ d ++ r) o k = d.
Proof.
  intros -> ->. unfold file_read, len. rewrite !Nat2N.id, skipn_app, skipn_all, Nat.sub_diag. cbn [app skipn].
  rewrite firstn_app, firstn_all, Nat.sub_diag, firstn_O, app_nil_r. auto.
Qed.

Lemma goodaa_res p : 16 <= len p -> exists b, Gzip_GoodAa p = Ok b.
Proof.
  intros H. unfold Gzip_GoodAa, guard. replace (16 <=? len p) with true by lia. cbn [bind]. destruct (_ && _); eauto.
Qed.

(* Index entries have been made for what is in the hold. *)
Definition pend (C : conf) (L : zlib) (s : fs) (n : N) (hb : bytes) (es2 : list ixent) : Prop :=
  f_hold s n = Some hb /\ Forall (good_in C L n hb) es2 /\
  exists es1, Permutation (entries s n) (es1 ++ es2) /\ settled C L (f_silo s n) n es1.

(* Something has been put at the end of the silo. *)
Definition appd (C : conf) (L : zlib) (s : fs) (n : N) (hb b d : bytes) : Prop :=
  f_hold s n = Some hb /\ f_silo s n = Some (b ++ d, true) /\ silo_ok C L n b (entries s n) /\ len (b ++ d) <= c_max C.

Lemma pend_mine C L s n hb : pend C L s n hb [] <-> mine C L s n hb.
Proof.
  unfold pend, mine, quiet. split.
  - intros (H & _ & es1 & P & Q). rewrite app_nil_r in P. split; auto. eapply settled_perm; [|exact Q]. apply Permutation_sym. auto.
  - intros (H & Q). split; [auto|split; [constructor|]]. exists (entries s n). rewrite app_nil_r. auto.
Qed.

Lemma pend_rely C L own s s' n hb es : In n own -> pend C L s n hb es -> rely own s s' -> pend C L s' n hb es.
Proof.
  intros Hn (H & G & es1 & P & Q) (R & _). destruct (R n Hn) as (A & B & E). split; [congruence|split; [auto|]].
  exists es1. rewrite A. split; auto. eapply perm_trans; eauto.
Qed.

Lemma appd_rely C L own s s' n hb b d : In n own -> appd C L s n hb b d -> rely own s s' -> appd C L s' n hb b d.
Proof.
  intros Hn (H & G & Q & Lb) (R & _). destruct (R n Hn) as (A & B & E). split; [congruence|split; [congruence|split; [|auto]]].
  pose proof (settled_perm C L (Some (b, true)) n _ _ (Permutation_sym E) Q). auto.
Qed.

Lemma pend_un C L s n hb es : pend C L s n hb es -> unsettled C L (f_silo s n) hb n (entries s n).
Proof.
  intros (H & G & es1 & P & Q). exists es1, es. split; [auto|split; [|auto]]. unfold settled in Q.
  destruct (f_silo s n) as [[b w]|]; auto. exists b, []. rewrite app_nil_r. auto.
Qed.

Lemma appd_un C L s n hb b d : appd C L s n hb b d -> unsettled C L (f_silo s n) hb n (entries s n).
Proof.
  intros (H & G & Q & _). exists (entries s n), []. rewrite G, app_nil_r. repeat split; auto. exists b, d. auto.
Qed.

(* the parts of [inv] which do not concern the number at hand *)
Lemma inv_change C L s s' n : inv C L s -> f_clock s' = f_clock s -> f_cache s' = f_cache s ->
  (forall m, m <> n -> f_silo s' m = f_silo s m /\ f_hold s' m = f_hold s m /\ entries s' m = entries s m) ->
  rely [] s s' ->
  (match f_hold s' n with
   | None => settled C L (f_silo s' n) n (entries s' n)
   | Some h => unsettled C L (f_silo s' n) h n (entries s' n)
   end) ->
  (forall b w, f_silo s' n = Some (b, w) -> len b <= c_max C /\ n < 2 ^ 32) ->
  inv C L s'.
Proof.
  intros ((A1 & A2 & A3) & B) E1 E2 O R Hn Hs. split; [|rewrite E1; auto]. split; [|split].
  - intros m. destruct (N.eq_dec m n) as [->|X]; [exact Hn|]. destruct (O m X) as (-> & -> & ->). apply A1.
  - intros m. destruct (N.eq_dec m n) as [->|X]; [exact Hs|]. destruct (O m X) as (-> & _). apply A2.
  - intros c Hc. rewrite E2 in Hc. eapply cache_rely; [apply A3; exact Hc|exact R].
Qed.

Lemma entries_ins s e n : entries (mkFs (f_silo s) (f_hold s) (f_idx s ++ [e]) (f_cache s) (f_clock s)) n =
  entries s n ++ (if e_silo e =? n then [e] else []).
Proof. unfold entries. cbn [f_idx]. rewrite filter_app. auto. Qed.

Lemma entries_in s n e : In e (entries s n) -> In e (f_idx s) /\ e_silo e = n.
Proof. unfold entries. rewrite filter_In, N.eqb_eq. auto. Qed.

Section Rules2.
Variable C : conf.
Variable L : zlib.
Variable D : death -> Prop.
Notation wpD := (wp (inv C L) D).
Notation prefix := (c_prefix C).

Lemma rely_ins own s e : rely (rm (e_silo e) own) s (mkFs (f_silo s) (f_hold s) (f_idx s ++ [e]) (f_cache s) (f_clock s)).
Proof.
  split; [|split].
  - intros m Hm. apply in_remove in Hm. cbn [f_silo f_hold]. rewrite entries_ins.
    replace (e_silo e =? m) with false by (symmetry; apply N.eqb_neq; intros Y; apply (proj2 Hm); auto). rewrite app_nil_r. auto.
  - intros m b w H. exists [], w. rewrite app_nil_r. auto.
  - exists [e]. auto.
Qed.

Lemma rely_ins0 s e : rely [] s (mkFs (f_silo s) (f_hold s) (f_idx s ++ [e]) (f_cache s) (f_clock s)).
Proof. eapply rely_nil. apply (rely_ins []). Qed.

Lemma wp_ins {B} (Q : B -> list N -> fs -> Prop) own s n hb es e f : In n own -> pend C L s n hb es -> e_silo e = n ->
  good_in C L n hb e ->
  (forall s1, rely (rm n own) s s1 -> pend C L s1 n hb (e :: es) -> wpD Q own s1 (f tt)) ->
  wpD Q own s (bindp (sys (CIdxIns e)) f).
Proof.
  intros Hn P En G H. apply wp_sys. intros s1 R I. apply (pend_rely C L own s s1) in P; auto.
  set (s2 := mkFs (f_silo s1) (f_hold s1) (f_idx s1 ++ [e]) (f_cache s1) (f_clock s1)).
  assert (P2 : pend C L s2 n hb (e :: es)).
  { destruct P as (H1 & H2 & es1 & P & S). split; [auto|split; [constructor; auto|]]. exists es1. split; [|exact S].
    unfold s2. rewrite entries_ins, En, N.eqb_refl. eapply perm_trans; [apply Permutation_app_tail; exact P|].
    rewrite <- app_assoc. apply Permutation_app_head. apply Permutation_sym. apply Permutation_cons_append. }
  split; [cbn [legal]; congruence|]. split; [intros s' T; inversion T|]. cbn [exec fst snd own_after]. fold s2. split.
  - apply (inv_change C L s1 s2 n); auto.
    + intros m X. unfold s2. rewrite entries_ins. replace (e_silo e =? m) with false by (symmetry; apply N.eqb_neq; congruence).
      rewrite app_nil_r. auto.
    + apply rely_ins0.
    + assert (X := pend_un _ _ _ _ _ _ P2). destruct P2 as (-> & _). exact X.
    + apply I.
  - apply H; auto. apply (rely_trans _ s s1).
    + eapply rely_mono; [|exact R]. intros m Hm. apply in_remove in Hm. tauto.
    + rewrite <- En. apply rely_ins.
Qed.

(* the entry which makes the silo complete *)
Lemma wp_ins_done {B} (Q : B -> list N -> fs -> Prop) own s n hb b d e f : In n own -> appd C L s n hb b d -> e_silo e = n ->
  (forall es, silo_ok C L n b es -> silo_ok C L n (b ++ d) (es ++ [e])) ->
  (forall s1, rely (rm n own) s s1 -> mine C L s1 n hb -> f_silo s1 n = Some (b ++ d, true) -> In e (f_idx s1) ->
     wpD Q own s1 (f tt)) ->
  wpD Q own s (bindp (sys (CIdxIns e)) f).
Proof.
  intros Hn P En G H. apply wp_sys. intros s1 R I. apply (appd_rely C L own s s1) in P; auto.
  set (s2 := mkFs (f_silo s1) (f_hold s1) (f_idx s1 ++ [e]) (f_cache s1) (f_clock s1)).
  assert (P2 : mine C L s2 n hb /\ f_silo s2 n = Some (b ++ d, true)).
  { destruct P as (H1 & H2 & H3 & H4). split; [split|]; auto. unfold quiet. change (f_silo s2 n) with (f_silo s1 n). rewrite H2.
    unfold s2. rewrite entries_ins, En, N.eqb_refl. cbn [settled]. auto. }
  split; [cbn [legal]; congruence|]. split; [intros s' T; inversion T|]. cbn [exec fst snd own_after]. fold s2. split.
  - apply (inv_change C L s1 s2 n); auto.
    + intros m X. unfold s2. rewrite entries_ins. replace (e_silo e =? m) with false by (symmetry; apply N.eqb_neq; congruence).
      rewrite app_nil_r. auto.
    + apply rely_ins0.
    + destruct P2 as ((-> & X) & _). apply settled_un. exact X.
    + apply I.
  - destruct P2 as (P2 & P3). apply H; auto.
    + apply (rely_trans _ s s1).
      * eapply rely_mono; [|exact R]. intros m Hm. apply in_remove in Hm. tauto.
      * rewrite <- En. apply rely_ins.
    + cbn [f_idx s2]. apply in_or_app. right. left. auto.
Qed.

Lemma wp_link {B} (Q : B -> list N -> fs -> Prop) own s n hb es f : In n own -> pend C L s n hb es ->
  silo_ok C L n hb es -> len hb <= c_max C -> n < 2 ^ 32 ->
  (forall s1, wpD Q own s1 (f false)) ->
  (forall s1, rely (rm n own) s s1 -> mine C L s1 n hb -> f_silo s1 n = Some (hb, true) ->
     (forall e, In e es -> In e (f_idx s1)) -> wpD Q own s1 (f true)) ->
  wpD Q own s (bindp (sys (CLink n)) f).
Proof.
  intros Hn P S Lh Ln H0 H. apply wp_sys. intros s1 R I. apply (pend_rely C L own s s1) in P; auto.
  split; [auto|]. split; [intros s' T; inversion T|]. cbn [exec].
  destruct (f_silo s1 n) as [[b w]|] eqn:E; cbn [fst snd own_after]; [auto|].
  assert (Eh : hold_of s1 n = hb) by (unfold hold_of; destruct P as (-> & _); auto). rewrite Eh.
  set (s2 := set_silo s1 n (Some (hb, true))).
  assert (Pe : Permutation (entries s1 n) es).
  { destruct P as (_ & _ & es1 & P & S1). rewrite E in S1. cbn [settled] in S1. subst es1. exact P. }
  assert (M2 : mine C L s2 n hb).
  { split; [apply P|]. unfold quiet. cbn [s2 set_silo f_silo]. rewrite upd_same.
    apply (settled_perm C L (Some (hb, true)) n es); auto. apply Permutation_sym. exact Pe. }
  assert (R2 : rely (rm n own) s1 s2).
  { split; [|split].
    - intros m Hm. apply in_remove in Hm. cbn [s2 set_silo f_silo f_hold]. rewrite upd_other by tauto. auto.
    - intros m b w F. cbn [s2 set_silo f_silo]. rewrite upd_other by congruence. exists [], w. rewrite app_nil_r. auto.
    - exists []. rewrite app_nil_r. auto. }
  split.
  - apply (inv_change C L s1 s2 n); auto.
    + intros m X. cbn [s2 set_silo f_silo f_hold]. rewrite upd_other by auto. auto.
    + eapply rely_nil. exact R2.
    + destruct M2 as (-> & X). apply settled_un. exact X.
    + intros b w. cbn [s2 set_silo f_silo]. rewrite upd_same. intros X. injection X as <- <-. auto.
  - apply H; auto.
    + apply (rely_trans _ s s1); auto. eapply rely_mono; [|exact R]. intros m Hm. apply in_remove in Hm. tauto.
    + cbn [s2 set_silo f_silo]. apply upd_same.
    + intros e He. apply (Permutation_in _ (Permutation_sym Pe)) in He. apply entries_in in He. apply He.
Qed.

Lemma wp_append {B} (Q : B -> list N -> fs -> Prop) own s n hb b d f : In n own -> mine C L s n hb ->
  f_silo s n = Some (b, true) -> len b + len d <= c_max C ->
  (forall s1, rely (rm n own) s s1 -> appd C L s1 n hb b d -> wpD Q own s1 (f tt)) ->
  wpD Q own s (bindp (sys (CAppend n d)) f).
Proof.
  intros Hn M S Ld H. apply wp_sys. intros s1 R I.
  assert (S1 : f_silo s1 n = Some (b, true)) by (destruct R as (R & _); destruct (R n Hn) as (-> & _); auto).
  apply (mine_rely C L own s s1) in M; auto.
  assert (G : forall d', len b + len d' <= c_max C -> appd C L (set_silo s1 n (Some (b ++ d', true))) n hb b d' /\
              rely (rm n own) s1 (set_silo s1 n (Some (b ++ d', true))) /\ inv C L (set_silo s1 n (Some (b ++ d', true)))).
  { intros d' Ld'. set (s2 := set_silo s1 n (Some (b ++ d', true))). destruct M as (M1 & M2).
    assert (A : appd C L s2 n hb b d').
    { split; [auto|]. split; [cbn [s2 set_silo f_silo]; apply upd_same|]. split.
      - unfold quiet in M2. rewrite S1 in M2. exact M2.
      - rewrite len_app. auto. }
    assert (R2 : rely (rm n own) s1 s2).
    { split; [|split].
      - intros m Hm. apply in_remove in Hm. cbn [s2 set_silo f_silo f_hold]. rewrite upd_other by tauto. auto.
      - intros m b' w F. cbn [s2 set_silo f_silo]. destruct (N.eq_dec m n) as [->|X].
        + rewrite upd_same. exists d', true. rewrite S1 in F. injection F as <- <-. split; auto. discriminate.
        + rewrite upd_other by congruence. exists [], w. rewrite app_nil_r. auto.
      - exists []. rewrite app_nil_r. auto. }
    split; [auto|split; [auto|]]. apply (inv_change C L s1 s2 n); auto.
    - intros m X. cbn [s2 set_silo f_silo f_hold]. rewrite upd_other by auto. auto.
    - eapply rely_nil. exact R2.
    - assert (U := appd_un _ _ _ _ _ _ _ A). destruct A as (-> & _). exact U.
    - intros b' w. cbn [s2 set_silo f_silo]. rewrite upd_same. intros X. injection X as <- <-. rewrite len_app. split; [auto|]. apply (proj1 (proj2 (proj1 I)) n _ _ S1). }
  split; [cbn [legal]; eauto|]. cbn [exec fst snd own_after]. rewrite S1. split; [|split].
  - intros s' T. inversion T; subst. cbn [exec fst]. rewrite S1.
    match goal with H : exists r, _ |- _ => destruct H as (r & ->) end. rewrite len_app in Ld.
    match goal with |- context [b ++ ?x] => destruct (G x) as (_ & _ & X) end; [lia|exact X].
  - apply G. auto.
  - destruct (G d Ld) as (A & R2 & _). apply H; auto. apply (rely_trans _ s s1); auto.
    eapply rely_mono; [|exact R]. intros m Hm. apply in_remove in Hm. tauto.
Qed.

Lemma wp_wcache own s aa : cache_ok C s aa ->
  wpD (fun _ o s1 => o = own /\ rely own s s1 /\ cache_ok C s1 aa) own s (WriteCache aa).
Proof.
  intros Hc. unfold WriteCache, sys. cbn [wp]. intros s1 R I. apply (cache_rely C own s s1) in Hc; auto.
  split; [exact Logic.I|]. split; [intros s' T; inversion T|]. cbn [exec fst snd own_after]. destruct aa as [a b]. cbn [fst snd].
  set (s2 := mkFs (f_silo s1) (f_hold s1) (f_idx s1) (Some (a, b)) (f_clock s1)).
  split; [|split; [auto|split]].
  - destruct I as ((A1 & A2 & A3) & Dt). split; [|exact Dt]. split; [exact A1|]. split; [exact A2|].
    intros c Ec. injection Ec as <-. exact Hc.
  - apply (rely_trans _ s s1); auto. split; [|split].
    + intros n _. auto.
    + intros m b' w F. exists [], w. rewrite app_nil_r. auto.
    + exists []. rewrite app_nil_r. auto.
  - exact Hc.
Qed.
End Rules2.

Lemma layout_app C L o a la b lb : layout C L o a la -> layout C L (o + len a) b lb -> layout C L o (a ++ b) (la ++ lb).
Proof.
  intros H. revert b lb. induction H as [o|o r w s l Hr Hl IH]; intros b lb Hb.
  - rewrite len_nil, N.add_0_r in Hb. exact Hb.
  - rewrite <- app_assoc. cbn [app]. constructor; auto. apply IH. rewrite len_app in Hb. rewrite <- N.add_assoc. exact Hb.
Qed.

Lemma silo_ok_app C L n b es r w e : silo_ok C L n b es -> record C L r w ->
  ~ has (wr_hdr w) "WARC-Type" (str "warcinfo") -> entry_for n (len b) w e -> silo_ok C L n (b ++ r) (es ++ [e]).
Proof.
  intros (w0 & l & es' & H1 & H2 & H3 & H4 & H5 & H6) Hr Hw He. exists w0, (l ++ [(len b, w)]), (es' ++ [e]).
  split; [|split; [auto|split; [auto|split; [|split]]]].
  - change ((0, w0) :: l ++ [(len b, w)]) with (((0, w0) :: l) ++ [(len b, w)]). apply layout_app; auto. rewrite N.add_0_l.
    rewrite <- (app_nil_r r). constructor; auto. constructor.
  - apply Forall_app. split; auto.
  - apply Permutation_app_tail. auto.
  - change ((0, w0) :: l ++ [(len b, w)]) with (((0, w0) :: l) ++ [(len b, w)]). apply Forall2_app; auto.
Qed.

Lemma rec_len C L r w : record C L r w -> 24 <= len r.
Proof. intros (H & B & -> & _). rewrite !len_app. change (len crnlcrnl) with 24. lia. Qed.

Lemma winfo_entry C L n wr wid : winfo C L n wr wid -> exists w, record C L wr w /\
  has (wr_hdr w) "WARC-Type" (str "warcinfo") /\ has (wr_hdr w) "WARC-Filename" (c_base C n) /\
  entry_for n 0 w (ideal wid 2 n 0 None).
Proof.
  intros (w & H1 & H2 & H3 & H4 & H5 & _). exists w. split; [auto|split; [auto|split; [auto|]]].
  unfold entry_for, ideal. cbn [e_silo e_off e_key e_flags e_cont]. rewrite H5. split; [auto|split; [auto|split; [auto|split; [|auto]]]].
  exists (str "warcinfo"). split; auto.
Qed.

Lemma silo_ok_two C L n wr wid r w e : winfo C L n wr wid -> record C L r w ->
  ~ has (wr_hdr w) "WARC-Type" (str "warcinfo") -> entry_for n (len wr) w e ->
  silo_ok C L n (wr ++ r) [ideal wid 2 n 0 None; e].
Proof.
  intros Hw Hr Hn He. destruct (winfo_entry _ _ _ _ _ Hw) as (w0 & H1 & H2 & H3 & H4).
  apply (silo_ok_app C L n wr [ideal wid 2 n 0 None] r w e); auto.
  exists w0, [], [ideal wid 2 n 0 None]. split; [|split; [auto|split; [auto|split; [auto|split; [auto|]]]]].
  - rewrite <- (app_nil_r wr). constructor; auto. constructor.
  - constructor; auto.
Qed.

Lemma in_archive_rely C L own s s' n o w e : in_archive C L s n o w e -> rely own s s' -> in_archive C L s' n o w e.
Proof.
  intros (H1 & H2 & b & wr & a & r & z & H3 & H4 & H5 & H6) (_ & R2 & ex & R3). split; [|split; [auto|]].
  - apply (Permutation_in _ (Permutation_sym R3)). apply in_or_app. auto.
  - destruct (R2 _ _ _ H3) as (t & w' & E & _). exists (b ++ t), w', a, r, (z ++ t). split; [auto|split; [|auto]].
    rewrite H4, <- !app_assoc. auto.
Qed.

Lemma rm_hd n m : n <> m -> rm n [n; m] = [m].
Proof. intros H. cbn [remove]. destruct (N.eq_dec n n); [|tauto]. destruct (N.eq_dec n m); [tauto|auto]. Qed.
Lemma rm_one n : rm n [n] = [].
Proof. cbn [remove]. destruct (N.eq_dec n n); tauto. Qed.

Section Commit.
Variable C : conf.
Variable L : zlib.
Hypothesis CO : conf_ok C.
Hypothesis ZO : zlib_ok L.
Variable D : death -> Prop.
Hypothesis DA : D DAbort.
Hypothesis DF : D DFuel.
Notation wpD := (wp (inv C L) D).
Notation prefix := (c_prefix C).

Definition sealed (sl : wsilo) (data hb : bytes) : Prop := exists wr hp B,
  hb = wr ++ hp ++ B ++ crnlcrnl /\ winfo C L (w_no sl) wr (w_wid sl) /\ len hp <= 3800 /\
  w_start sl = len wr /\ w_hlen sl = len hp /\ w_len sl = len hb /\ w_buf sl = false /\ w_no sl < 2 ^ 32 - 1 /\
  len hb <= c_max C /\ synced B data /\ aa_member B.

Lemma Wsilo_Finish_ok s sl hb m data : mine C L s (w_no sl) hb -> opened C L sl hb (m ++ crnlcrnl) -> unsized m data ->
  len hb <= c_max C ->
  wpD (fun sl' own s1 => own = [w_no sl] /\ w_no sl' = w_no sl /\ w_idx sl' = w_idx sl /\
         exists hb', mine C L s1 (w_no sl) hb' /\ sealed sl' data hb') [w_no sl] s (Wsilo_Finish sl).
Proof.
  intros M (wr & hp & E & W & Lh & E1 & E2 & E3 & E4 & E5) (xfl & B & fin & Em & HB & HL & Hf) Lm.
  pose proof (co_max C CO) as MX.
  unfold Wsilo_Finish. rewrite E4. apply wp_assert; auto. intros _. apply wp_assert; auto. intros A1.
  rewrite E1, E2, E3 in *.
  assert (Lhb : len hb = len wr + len hp + len m + 24).
  { rewrite E, !len_app. change (len crnlcrnl) with 24. lia. }
  set (hd16 := [31; 139; 8; 4; 0; 0; 0; 0; xfl; 3; 12; 0; 65; 97; 8; 0]) in *.
  set (tl := B ++ fin ++ le_enc 4 (crc32 data) ++ le_enc 4 (len data mod 2 ^ 32)) in *.
  eapply wp_read; [left; reflexivity|exact M|]. intros s1 R1 M1.
  assert (R : file_read hb (len wr + len hp) 16 = hd16).
  { rewrite E, Em. rewrite (app_assoc wr hp). rewrite <- !app_assoc. rewrite (app_assoc wr hp).
    apply read_at; [rewrite len_app; auto|reflexivity]. }
  rewrite R. apply wp_assert; auto. intros _. destruct (goodaa_res hd16) as (g & G); [vm_compute; discriminate|].
  rewrite G. cbn [lift bindp]. apply wp_assert; auto. intros ->.
  destruct (set_nth_good _ G) as (x & rest & Hx & Ex).
  assert (xfl = x) by (unfold hd16 in Ex; injection Ex; auto). subst x. clear Ex rest.
  set (lz := le_enc 8 (Z.to_N (Z.of_N (len hb) - (Z.of_N (len wr + len hp) + 24)))).
  assert (El : lz = le_enc 8 (len m)) by (unfold lz; f_equal; lia).
  eapply wp_pwrite; [exact M1|]. intros s2 _ M2. cbn [wp].
  split; [auto|]. split; [auto|]. split; [auto|].
  assert (Wr : file_write hb (len wr + len hp + 16) lz = wr ++ hp ++ ((hd16 ++ lz) ++ tl) ++ crnlcrnl).
  { rewrite E. rewrite (app_assoc wr hp), <- (len_app wr hp). pose proof (le_enc_length 8 (len m)) as L8. rewrite <- El in L8.
    change 16 with (N.of_nat 16). rewrite write_at.
    - rewrite L8. rewrite <- !app_assoc. do 3 f_equal.
      + rewrite Em. rewrite <- !app_assoc. unfold hd16. reflexivity.
      + f_equal. rewrite Em. pose proof (le_enc_length 8 0) as L0. revert L0. generalize (le_enc 8 0). intros z L0.
        destruct z as [|? [|? [|? [|? [|? [|? [|? [|? [|]]]]]]]]]; try discriminate. unfold hd16. reflexivity.
    - rewrite L8. pose proof (f_equal (@List.length N) Em) as Y. rewrite !app_length, le_enc_length in Y. unfold hd16 in Y. simpl List.length in Y.
      unfold bytes in *. lia. }
  exists (wr ++ hp ++ ((hd16 ++ lz) ++ tl) ++ crnlcrnl). split; [congruence|].
  assert (Lb : len ((hd16 ++ lz) ++ tl) = len m).
  { rewrite Em, El, !len_app, !le_enc_len. lia. }
  exists wr, hp, ((hd16 ++ lz) ++ tl). cbn [w_no w_idx w_len w_start w_hlen w_buf w_wid].
  split; [auto|]. split; [auto|]. split; [auto|]. split; [auto|]. split; [auto|].
  split; [rewrite !len_app in *; change (len crnlcrnl) with 24; lia|]. split; [auto|]. split; [auto|].
  split; [rewrite !len_app in *; change (len crnlcrnl) with 24; lia|]. split.
  - exists xfl, B, fin. rewrite Lb, El. split; [reflexivity|]. split; [lia|]. auto.
  - exists xfl, tl. rewrite Lb, El. split; [auto|]. split; [lia|reflexivity].
Qed.

Lemma record_of v hd B data : describes (z_sha L) hd data -> named (c_idsize C) (z_sha L) (mkRec hd data) -> gunzip v = Some (warc_text prefix hd, []) -> hgood hd -> idgood (h_id hd) ->
  len v <= 4000 -> hlen prefix hd <= 4000 -> synced B data -> aa_member B ->
  record C L (v ++ B ++ crnlcrnl) (mkRec hd data).
Proof.
  intros H8 H9 H1 H2 H3 H4 H5 H6 H7. exists v, B. cbn [wr_hdr wr_data]. split; [auto|split; [auto|split; [auto|]]]. split; [auto|split; [apply good_wf; auto|]].
  split; [lia|]. split; [rewrite <- ser_text; unfold hlen in H5; lia|]. split; [auto|]. split; [|auto].
  rewrite <- (app_nil_r B). apply synced_gunzip. auto.
Qed.

(* what is put in: header, its type, the flags *)
Definition ready (sl : wsilo) (hd : header) (t data : bytes) : Prop :=
  describes (z_sha L) hd data /\ named (c_idsize C) (z_sha L) (mkRec hd data) /\
  hgood hd /\ idgood (h_id hd) /\ hlen prefix hd <= 3800 /\ hget hd "WARC-Type" = Some t /\
  t <> str "warcinfo" /\ w_idx sl = type_flag t.

Lemma said_same hd h data : hgood hd -> hgood h -> h_id h = h_id hd -> (forall m, samename m "z" = false -> hget h m = hget hd m) ->
  describes (z_sha L) hd data /\ named (c_idsize C) (z_sha L) (mkRec hd data) ->
  describes (z_sha L) h data /\ named (c_idsize C) (z_sha L) (mkRec h data).
Proof.
  intros (G1 & _) (G2 & _) I H ((A1 & A2) & N1).
  assert (HS : forall m v, samename m "z" = false -> (has h m v <-> has hd m v)).
  { intros m v Hm. rewrite !has_get by auto. rewrite H by auto. tauto. }
  assert (HN : forall m, samename m "z" = false -> (hasnt h m <-> hasnt hd m)).
  { intros m Hm. rewrite !hasnt_get. rewrite H by auto. tauto. }
  split; [split; apply HS; auto|]. destruct N1 as (N1 & KD & LD). unfold named in *. cbn [wr_hdr wr_data] in *. rewrite I. split; [|split; [|exact LD]].
  - intros T. apply HS in T; [|auto].
    destruct (N1 T) as (x & X & [(B1 & B2 & B3)|(B1 & B2)]); exists x; (split; [auto|]).
    + left. rewrite !HN; auto.
    + right. rewrite !HS; auto.
  - unfold kind_ok in *. cbn [wr_hdr wr_data] in *. rewrite I. rewrite !HS, !HN by reflexivity.
    destruct KD as [(K1 & K2)|[K|(K1 & (k & K2 & K3) & K4)]]; [left|right; left; exact K|right; right].
    + split; [|exact K2]. destruct K1 as [K1|(K1 & ref & K3)]; [left; exact K1|right]. split; [exact K1|]. exists ref. rewrite HS by reflexivity. exact K3.
    + split; [exact K1|]. split; [|exact K4]. exists k. split; [exact K2|]. rewrite HS by reflexivity. exact K3.
Qed.

Lemma ready_type sl hd t data : ready sl hd t data -> ~ has (wr_hdr (mkRec hd data)) "WARC-Type" (str "warcinfo").
Proof.
  intros (_ & _ & H1 & H2 & H3 & H4 & H5 & H6) H. cbn [wr_hdr] in H. apply has_get in H; [|apply H1]. congruence.
Qed.

Lemma attempt_ok s sl hb data aa silono v2 hd t : mine C L s (w_no sl) hb -> sealed sl data hb -> cache_ok C s aa ->
  silono < w_no sl -> ready sl hd t data -> hget hd "WARC-Segment-Number" = None ->
  gunzip v2 = Some (warc_text prefix hd, []) -> len v2 <= 4000 ->
  wpD (fun x own s1 => own = [w_no sl] /\ mine C L s1 (w_no sl) hb /\ cache_ok C s1 (fst x) /\
         (snd x = AppDone -> exists n o, in_archive C L s1 n o (mkRec hd data) (ideal (h_id hd) (w_idx sl) n o None)))
      [w_no sl] s (silo_attempt_append C aa sl silono v2 (h_id hd)).
Proof.
  intros M SE CK Hs RD NS GV LV. pose proof RD as (RA & RB & R1 & R2 & R3 & R4 & R5 & R6).
  pose proof SE as (wr & hp & B & E & W & Lh & E1 & E2 & E3 & E4 & E5 & E6 & SY & AM).
  assert (RC : record C L (v2 ++ B ++ crnlcrnl) (mkRec hd data)) by (apply record_of; auto; lia).
  pose proof (ready_type sl hd t data RD) as NW.
  unfold silo_attempt_append. set (pos := w_start sl + w_hlen sl). set (need := len v2 + (w_len sl - pos)).
  assert (Hneed : need = len (v2 ++ B ++ crnlcrnl)).
  { unfold need, pos. rewrite E1, E2, E3, E, !len_app. lia. }
  assert (In1 : In (w_no sl) [w_no sl]) by (left; auto).
  apply wp_ro; auto. intros s1 Rl1 I1. apply (mine_rely C L [w_no sl] s s1) in M; auto. apply (cache_rely C [w_no sl] s s1) in CK; auto.
  cbn [exec snd]. clear Rl1.
  assert (NO : forall s2 aa2, mine C L s2 (w_no sl) hb -> cache_ok C s2 aa2 -> forall r, r = AppNo \/ r = AppStop ->
     wpD (fun x own s1 => own = [w_no sl] /\ mine C L s1 (w_no sl) hb /\ cache_ok C s1 (fst x) /\
         (snd x = AppDone -> exists n o, in_archive C L s1 n o (mkRec hd data) (ideal (h_id hd) (w_idx sl) n o None)))
      [w_no sl] s2 (Ret (aa2, r))).
  { intros s2 aa2 M2 C2 r Hr. cbn [wp fst snd]. split; [auto|split; [auto|split; [auto|]]]. destruct Hr as [-> | ->]; discriminate. }
  destruct (f_silo s1 silono) as [[b w]|] eqn:F; [|apply NO; auto].
  assert (Lb : len b <= c_max C) by (apply (proj1 (proj2 (proj1 I1))) in F; tauto).
  (* the first cache update *)
  apply wp_seq with (R := fun aa2 o s2 => o = [w_no sl] /\ mine C L s2 (w_no sl) hb /\ cache_ok C s2 aa2 /\ rely [w_no sl] s1 s2).
  { destruct (silono =? fst aa) eqn:X; [|cbn [wp]; split; [auto|split; [auto|split; [auto|apply rely_refl]]]].
    apply N.eqb_eq in X. rewrite N.mod_small by lia. eapply wp_seq; [apply (wp_wcache C L D [w_no sl] s1 (fst aa + 1, snd aa))|].
    - destruct CK as (K1 & K2 & K3 & K4). split; cbn [fst snd]; [lia|]. split; [lia|]. split.
      + intros m Hm. destruct (N.eq_dec m silono) as [->|Y]; [congruence|]. apply K3. lia.
      + intros m Hm. destruct (K4 m Hm) as (b' & w' & E' & X'). exists b', w'. split; auto. lia.
    - cbn beta. intros _ o s2 (-> & Rl & K). cbn [wp]. split; [auto|]. split; [apply (mine_rely C L [w_no sl] s1 s2); auto|]. auto. }
  cbn beta. clear aa CK. intros aa o s2 (-> & M2 & CK & Rl). clear M. rename M2 into M.
  destruct w; cbn [negb]; [|apply NO; auto].
  set (bx := ((Z.of_N (fst aa) - Z.of_N (snd aa)) mod 2 ^ 32)%Z).
  assert (Ebx : bx = (Z.of_N (fst aa) - Z.of_N (snd aa))%Z).
  { unfold bx. destruct CK as (K1 & K2 & _). apply Z.mod_small. change (2 ^ 32)%N with 4294967296%N in K1. change (2 ^ 32)%Z with 4294967296%Z. lia. }
  clearbody bx. subst bx.
  apply wp_seq with (R := fun aa2 o s3 => o = [w_no sl] /\ mine C L s3 (w_no sl) hb /\ cache_ok C s3 aa2).
  { destruct (_ && _) eqn:X; [|cbn [wp]; auto]. apply andb_true_iff in X. destruct X as [X Y]. apply N.eqb_eq in X.
    rewrite N.mod_small by lia. eapply wp_seq; [apply (wp_wcache C L D [w_no sl] s2 (fst aa, snd aa + 1))|].
    - destruct CK as (K1 & K2 & K3 & K4). split; cbn [fst snd]; [lia|]. split; [lia|]. split; [auto|].
      intros m Hm. destruct (N.eq_dec m silono) as [->|Z]; [|apply K4; lia].
      destruct Rl as (_ & Rl & _). destruct (Rl _ _ _ F) as (tl & w' & E' & _). exists (b ++ tl), w'. split; auto.
      rewrite len_app. lia.
    - cbn beta. intros _ o s3 (-> & Rl3 & K). cbn [wp]. split; [auto|]. split; [apply (mine_rely C L [w_no sl] s2 s3); auto|]. auto. }
  cbn beta. clear aa CK. intros aa o s3 (-> & M3 & CK). clear M. rename M3 into M.
  destruct (c_max C <? len b + need); [apply NO; auto|]. clear s1 s2 I1 F Rl b Lb.
  apply wp_creat.
  - intros m [<-|[]]. destruct M as (-> & _). discriminate.
  - intros s4 R4' I4. cbn [negb]. apply NO; [apply (mine_rely C L [w_no sl] s3 s4); auto|eapply cache_rely; eauto|auto].
  - intros s4 Rl4 Nin M4. cbn [negb]. apply (mine_rely C L [w_no sl] s3 s4) in M; auto. apply (cache_rely C [w_no sl] s3 s4) in CK; auto.
    clear Rl4 s3. assert (Ne : silono <> w_no sl) by (intros X; apply Nin; left; auto).
    assert (Inn : In silono [silono; w_no sl]) by (left; auto). assert (Inw : In (w_no sl) [silono; w_no sl]) by (right; left; auto).
    assert (UN : forall s5, mine C L s5 (w_no sl) hb -> mine C L s5 silono [] -> cache_ok C s5 aa ->
      wpD (fun x own s1 => own = [w_no sl] /\ mine C L s1 (w_no sl) hb /\ cache_ok C s1 (fst x) /\
         (snd x = AppDone -> exists n o, in_archive C L s1 n o (mkRec hd data) (ideal (h_id hd) (w_idx sl) n o None)))
       [silono; w_no sl] s5 (let! _ := sys (CUnlink silono) in Ret (aa, AppNo))).
    { intros s5 M5 MS5 C5. apply wp_unlink; [auto|apply MS5|]. rewrite rm_hd by auto. intros s6 R6'.
      apply NO; auto; [apply (mine_rely C L [w_no sl] s5 s6)|apply (cache_rely C [w_no sl] s5 s6)]; auto. }
    apply wp_ro; auto. intros s5 Rl5 I5. pose proof (mine_rely C L _ s4 s5 _ _ Inw M Rl5) as M5.
    pose proof (mine_rely C L _ s4 s5 _ _ Inn M4 Rl5) as MS5. eapply (cache_rely C _ s4 s5) in CK; [|exact Rl5].
    cbn [exec snd]. destruct (f_silo s5 silono) as [[b w]|] eqn:F5; [|cbn [negb]; apply UN; auto].
    destruct w; cbn [negb]; [|apply UN; auto]. clear s4 M M4 Rl5.
    apply wp_ro; auto. intros s6 Rl6 I6. pose proof (mine_rely C L _ s5 s6 _ _ Inw M5 Rl6) as M6.
    pose proof (mine_rely C L _ s5 s6 _ _ Inn MS5 Rl6) as MS6. eapply (cache_rely C _ s5 s6) in CK; [|exact Rl6].
    assert (F6 : f_silo s6 silono = Some (b, true)) by (destruct Rl6 as (Rl6 & _); destruct (Rl6 _ Inn) as (-> & _); auto).
    cbn [exec snd]. rewrite F6. cbn [negb orb]. destruct (c_max C <? len b + need) eqn:Sz; [apply UN; auto|].
    clear s5 M5 MS5 Rl6 I5 F5. 
    eapply wp_read; [exact Inw|exact M6|]. intros s7 Rl7 M7. pose proof (mine_rely C L _ s6 s7 _ _ Inn MS6 Rl7) as MS7.
    eapply (cache_rely C _ s6 s7) in CK; [|exact Rl7].
    assert (F7 : f_silo s7 silono = Some (b, true)) by (destruct Rl7 as (Rl7 & _); destruct (Rl7 _ Inn) as (-> & _); auto).
    clear s6 M6 MS6 Rl7 I6 F6.
    assert (ER : file_read hb pos (w_len sl - pos) = B ++ crnlcrnl).
    { rewrite E at 1. rewrite (app_assoc wr hp). rewrite <- (app_nil_r (B ++ crnlcrnl)) at 1. apply read_at.
      - unfold pos. rewrite len_app. lia.
      - unfold pos. rewrite E3, E, E1, E2, !len_app. lia. }
    rewrite ER. set (wrt := v2 ++ B ++ crnlcrnl) in *.
    apply wp_ro; auto. intros s8 Rl8 I8. pose proof (mine_rely C L _ s7 s8 _ _ Inw M7 Rl8) as M8.
    pose proof (mine_rely C L _ s7 s8 _ _ Inn MS7 Rl8) as MS8. eapply (cache_rely C _ s7 s8) in CK; [|exact Rl8].
    assert (F8 : f_silo s8 silono = Some (b, true)) by (destruct Rl8 as (Rl8 & _); destruct (Rl8 _ Inn) as (-> & _); auto).
    cbn [exec snd]. replace (silo_of s8 silono) with b by (unfold silo_of; rewrite F8; auto).
    clear s7 M7 MS7 Rl8 I8 F7.
    eapply (wp_append C L D); [exact Inn|exact MS8|exact F8|lia|]. rewrite rm_hd by auto. intros s9 Rl9 A9.
    eapply (mine_rely C L _ s8 s9) in M8; [|exact In1|exact Rl9]. eapply (cache_rely C _ s8 s9) in CK; [|exact Rl9]. clear s8 MS8 F8 Rl9.
    apply wp_ro; auto. intros s10 Rl10 I10. eapply (mine_rely C L _ s9 s10 _ _ Inw) in M8; [|exact Rl10].
    apply (appd_rely C L _ s9 s10 _ _ _ _ Inn) in A9; auto. eapply (cache_rely C _ s9 s10) in CK; [|exact Rl10]. clear s9 Rl10.
    cbn [exec snd]. replace (silo_of s10 silono) with (b ++ wrt) by (unfold silo_of; destruct A9 as (_ & -> & _); auto).
    apply wp_assert; auto. intros A1. apply wp_assert; auto. intros A2.
    replace (len (b ++ wrt) - len wrt) with (len b) by (rewrite len_app; lia). unfold insert.
    assert (EN : entry_for silono (len b) (mkRec hd data) (ideal (h_id hd) (w_idx sl) silono (len b) None)).
    { unfold entry_for, ideal. cbn [e_silo e_off e_key e_flags e_cont wr_hdr]. split; [auto|split; [auto|split; [auto|split; [|auto]]]].
      exists t. split; [apply has_get; [apply R1|auto]|]. left. split; [apply hasnt_get; auto|auto]. }
    eapply (wp_ins_done C L D); [exact Inn|exact A9|reflexivity|intros es Hes; apply (silo_ok_app C L silono b es wrt (mkRec hd data)); auto|].
    rewrite rm_hd by auto. intros s11 Rl11 M11 F11 IN. eapply (mine_rely C L _ s10 s11) in M8; [|exact In1|exact Rl11]. eapply (cache_rely C _ s10 s11) in CK; [|exact Rl11].
    assert (IA : in_archive C L s11 silono (len b) (mkRec hd data) (ideal (h_id hd) (w_idx sl) silono (len b) None)).
    { split; [auto|]. split; [auto|]. exists (b ++ wrt), true, b, wrt, []. rewrite app_nil_r. auto. }
    apply wp_unlink; [auto|apply M11|]. rewrite rm_hd by auto. intros s12 Rl12. cbn [wp fst snd].
    split; [auto|]. split; [apply (mine_rely C L [w_no sl] s11 s12); auto|]. split; [apply (cache_rely C [w_no sl] s11 s12); auto|].
    intros _. exists silono, (len b). eapply in_archive_rely; eauto.
Qed.

Lemma append_loop_ok k : forall s sl hb data aa sn v2 hd t, mine C L s (w_no sl) hb -> sealed sl data hb -> cache_ok C s aa ->
  sn + N.of_nat k <= w_no sl -> ready sl hd t data -> hget hd "WARC-Segment-Number" = None ->
  gunzip v2 = Some (warc_text prefix hd, []) -> len v2 <= 4000 ->
  wpD (fun x own s1 => own = [w_no sl] /\ mine C L s1 (w_no sl) hb /\ cache_ok C s1 (fst x) /\
         (snd x = true -> exists n o, in_archive C L s1 n o (mkRec hd data) (ideal (h_id hd) (w_idx sl) n o None)))
      [w_no sl] s (append_loop C k aa sl sn v2 (h_id hd)).
Proof.
  induction k as [|k IH]; intros s sl hb data aa sn v2 hd t M SE CK Hs RD NS GV LV; cbn [append_loop].
  - cbn [wp fst snd]. split; [auto|split; [auto|split; [auto|discriminate]]].
  - eapply wp_seq; [apply (attempt_ok s sl hb data aa sn v2 hd t); auto; lia|]. cbn beta.
    intros (aa2, r) o s1 (-> & M1 & CK1 & X). cbn [fst snd] in *. destruct r.
    + cbn [wp fst snd]. auto.
    + eapply IH; eauto. lia.
    + cbn [wp fst snd]. split; [auto|split; [auto|split; [auto|discriminate]]].
Qed.

Definition segok (segd : bool) (hd : header) (rid : option bytes) : Prop :=
  if segd then exists k, hget hd "WARC-Segment-Number" = Some k /\
    match rid with
    | None => exists v, hget hd "WARC-Segment-Total-Length" = Some v
    | Some _ => hget hd "WARC-Segment-Total-Length" = None
    end
  else rid = None /\ hget hd "WARC-Segment-Number" = None.

Lemma flag_cases t : type_flag t = 0 \/ type_flag t = 2 \/ type_flag t = 4 \/ type_flag t = 8.
Proof. unfold type_flag. destruct (bytes_eqb _ _); auto. destruct (bytes_eqb _ _); auto. destruct (bytes_eqb _ _); auto. Qed.

Lemma commit_ok s sl hb data aa hd t segd rid : mine C L s (w_no sl) hb -> sealed sl data hb -> cache_ok C s aa ->
  ready sl hd t data -> segok segd hd rid ->
  wpD (fun aa' own s1 => own = [] /\ cache_ok C s1 aa' /\ exists n o hd' e, in_archive C L s1 n o (mkRec hd' data) e /\
         e_cont e = pad 8 (match rid with Some c => c | None => [] end) /\ hgood hd' /\ h_id hd' = h_id hd /\
         (segd = true -> n = w_no sl /\ o = w_start sl) /\
         (forall m, samename m "z" = false -> hget hd' m = hget hd m))
      [w_no sl] s (Wsilo_Commit C L aa sl hd segd (h_id hd) rid).
Proof.
  intros M SE CK RD SG. pose proof RD as (RA & RB & R1 & R2 & R3 & R4 & R5 & R6).
  pose proof SE as (wr & hp & B & E & W & Lh & E1 & E2 & E3 & E4 & E5 & E6 & SY & AM).
  pose proof (ready_type sl hd t data RD) as NW. assert (In1 : In (w_no sl) [w_no sl]) by (left; auto).
  unfold Wsilo_Commit. apply wp_assert; auto. intros _.
  apply wp_seq with (R := fun x o s1 => o = [w_no sl] /\ mine C L s1 (w_no sl) hb /\ cache_ok C s1 (fst x) /\
     (snd x = true -> (rid = None /\ segd = false) /\ exists n o, in_archive C L s1 n o (mkRec hd data) (ideal (h_id hd) (w_idx sl) n o None))).
  { destruct (negb segd && (0 <? w_no sl)) eqn:X.
    - destruct segd; [discriminate|]. cbn [segok] in SG. destruct SG as (-> & NS). apply wp_assert; auto. intros _.
      destruct (hser_cases C L CO ZO 9 hd R1 (proj2 R2)) as [EH|(v & EH & GZ & LZ & _)]; [lia|rewrite EH; cbn [bindp wp]; auto|].
      rewrite EH. cbn [bindp]. eapply wp_conseq; [|destruct (N.leb_spec (snd aa) (w_no sl)) as [LE|GT];
         [eapply (append_loop_ok _ s sl hb data aa (snd aa) v hd t); auto; lia|]].
      + cbn beta. intros x o s1 (H1 & H2 & H3 & H4). auto 6.
      + replace (N.to_nat (w_no sl - snd aa)) with 0%nat by lia. cbn [append_loop wp fst snd].
        split; [auto|split; [auto|split; [auto|discriminate]]].
    - cbn [wp fst snd]. split; [auto|split; [auto|split; [auto|discriminate]]]. }
  cbn beta. clear aa CK. intros (aa, done) o s1 (-> & M1 & CK & DN). cbn [fst snd] in *. destruct done.
  - (* appended *)
    destruct (DN eq_refl) as ((-> & ->) & n & o & IA). unfold wsilo_delete. apply wp_unlink; [auto|apply M1|]. rewrite rm_one. intros s2 Rl2.
    cbn [wp]. split; [auto|]. split; [eapply cache_rely; eauto|]. exists n, o, hd, (ideal (h_id hd) (w_idx sl) n o None).
    split; [eapply in_archive_rely; eauto|]. split; [reflexivity|]. split; [auto|]. split; [auto|]. split; [discriminate|auto].
  - clear DN.
    destruct (hser_cases C L CO ZO 0 hd R1 (proj2 R2)) as [EH|(v0 & EH & GZ & LZ & LZ0)]; [lia|rewrite EH; cbn [bindp wp]; auto|].
    rewrite EH. cbn [bindp]. specialize (LZ0 eq_refl).
    set (i := (Z.of_N (w_hlen sl) - Z.of_N (len v0))%Z).
    apply wp_seq with (R := fun x o s2 => o = [w_no sl] /\ s2 = s1 /\ gunzip (snd x) = Some (warc_text prefix (fst x), []) /\
       hgood (fst x) /\ h_id (fst x) = h_id hd /\ hlen prefix (fst x) <= 4000 /\
       (forall m, samename m "z" = false -> hget (fst x) m = hget hd m)).
    { destruct (0 <? i)%Z eqn:X.
      - apply wp_assert; auto. intros A1.
        destruct (hset_ret prefix hd "z" (repeat 95 (Z.to_nat (i - 5)))) as (h' & Eh & G & I & GG & LL);
          [auto|reflexivity|apply goodval_repeat; apply goodb_val; reflexivity|].
        rewrite Eh. cbn [bindp].
        assert (Lh' : hlen prefix h' <= 3800).
        { unfold Header_Len in LL. change (len (str "z")) with 1 in LL. unfold len at 1 in LL. rewrite repeat_length in LL. lia. }
        destruct (hser_cases C L CO ZO 0 h' G) as [EH'|(v & EH' & GZ' & LZ' & _)]; [rewrite I; apply R2|lia|rewrite EH'; cbn [bindp wp]; auto|].
        rewrite EH'. cbn [bindp wp fst snd]. split; [auto|split; [auto|split; [auto|split; [auto|split; [auto|split; [lia|]]]]]]. intros m Hm. rewrite GG, Hm. auto.
      - cbn [wp fst snd]. split; [auto|split; [auto|split; [auto|split; [auto|split; [auto|split; [lia|]]]]]]. auto. }
    cbn beta. intros (h & v) o s2 (-> & -> & G1 & G2 & G3 & G4 & G5). cbn [fst snd] in *.
    apply wp_assert; auto. intros A1. apply N.eqb_eq in A1.
    assert (RC : record C L (v ++ B ++ crnlcrnl) (mkRec h data)) by (destruct (said_same hd h data R1 G2 G3 G5 (conj RA RB)); apply record_of; auto; [rewrite G3; auto|lia]).
    eapply wp_pwrite; [exact M1|]. intros s2 Rl2 M2. eapply cache_rely in CK; [|exact Rl2].
    assert (WR : file_write hb (w_start sl) v = wr ++ v ++ B ++ crnlcrnl).
    { rewrite E, E1. replace (len wr) with (len wr + N.of_nat 0) by lia. assert (LL : List.length v = List.length hp) by (unfold len in *; lia).
      rewrite write_at; [|lia]. cbn [firstn app Nat.add]. rewrite LL, skipn_all, app_nil_r. auto. }
    rewrite WR in M2. set (hb2 := wr ++ v ++ B ++ crnlcrnl) in *.
    assert (L2 : len hb2 <= c_max C) by (unfold hb2; rewrite E, !len_app in E6; rewrite !len_app; lia).
    clear s s1 M M1 EH Rl2.
    set (fl := w_idx sl). 
    apply wp_seq with (R := fun x o s3 => o = [w_no sl] /\ s3 = s2 /\ flags_for h x).
    { assert (HT : has h "WARC-Type" t) by (apply has_get; [apply G2|rewrite G5; auto]).
      destruct segd; cbn [segok] in SG.
      - destruct SG as (k & S1 & S2). replace (Header_Get h (str "WARC-Segment-Number")) with (Some k)
          by (symmetry; rewrite <- S1; apply G5; reflexivity).
        cbn [wp]. split; [auto|split; [auto|]]. exists t. split; [auto|]. right.
        exists k, (match rid with None => true | _ => false end). split; [apply has_get; [apply G2|rewrite G5; auto]|]. split.
        + destruct rid; [apply hasnt_get; rewrite G5; auto|]. destruct S2 as (x & S2). exists x. apply has_get; [apply G2|rewrite G5; auto].
        + unfold fl. rewrite R6. destruct (flag_cases t) as [->|[->|[->| ->]]]; destruct rid; destruct (bytes_eqb k (str "1")); reflexivity.
      - destruct SG as (_ & S1). cbn [wp]. split; [auto|split; [auto|]]. exists t. split; auto. left. split; [|auto].
        apply hasnt_get. rewrite G5; auto. }
    cbn beta. intros idx o s3 (-> & -> & FL). unfold insert. set (e := ideal (h_id hd) idx (w_no sl) (w_start sl) rid).
    assert (EN : entry_for (w_no sl) (len wr) (mkRec h data) e).
    { unfold entry_for, e, ideal. cbn [e_silo e_off e_key e_flags e_cont wr_hdr]. rewrite G3. split; [auto|split; [auto|split; [auto|split; [auto|]]]].
      intros NS. destruct segd; cbn [segok] in SG.
      - destruct SG as (k & S1 & S2). destruct NS as [NS|(v' & NS)]; [apply hasnt_get in NS; rewrite G5 in NS by reflexivity; congruence|].
        apply has_get in NS; [|apply G2]. rewrite G5 in NS by reflexivity. destruct rid; [congruence|reflexivity].
      - destruct SG as (-> & _). auto. }
    assert (NW2 : ~ has (wr_hdr (mkRec h data)) "WARC-Type" (str "warcinfo")).
    { cbn [wr_hdr]. intros X. apply has_get in X; [|apply G2]. rewrite G5 in X by reflexivity. congruence. }
    eapply (wp_ins C L D); [exact In1|apply pend_mine; exact M2|reflexivity| |].
    { exists wr, (v ++ B ++ crnlcrnl), [], (mkRec h data). rewrite app_nil_r. auto. }
    rewrite rm_one. intros s3 Rl3 P3. eapply cache_rely in CK; [|exact Rl3].
    unfold Wsilo_Install, insert. set (e0 := ideal (w_wid sl) IDX_F_WARCINFO (w_no sl) 0 None).
    destruct (winfo_entry _ _ _ _ _ W) as (w0 & W1 & W2 & W3 & W4). change (ideal (w_wid sl) 2 (w_no sl) 0 None) with e0 in W4.
    eapply (wp_ins C L D); [exact In1|exact P3|reflexivity| |].
    { exists [], wr, (v ++ B ++ crnlcrnl), w0. auto. }
    rewrite rm_one. intros s4 Rl4 P4. eapply cache_rely in CK; [|exact Rl4].
    eapply (wp_link C L D); [exact In1|exact P4|apply (silo_ok_two C L (w_no sl) wr (w_wid sl) (v ++ B ++ crnlcrnl) (mkRec h data) e); auto|auto|lia| |].
    { intros s5. cbn [assert bindp wp]. auto. }
    rewrite rm_one. intros s5 Rl5 M5 F5 IN. eapply cache_rely in CK; [|exact Rl5]. cbn [assert bindp].
    assert (IA : in_archive C L s5 (w_no sl) (len wr) (mkRec h data) e).
    { split; [apply IN; right; left; auto|]. split; [auto|]. exists hb2, true, wr, (v ++ B ++ crnlcrnl), []. rewrite app_nil_r. auto. }
    apply wp_seq with (R := fun aa2 o s6 => o = [w_no sl] /\ mine C L s6 (w_no sl) hb2 /\ cache_ok C s6 aa2 /\ rely [] s5 s6).
    { destruct (w_no sl =? fst aa) eqn:X; [|cbn [wp]; split; [auto|split; [auto|split; [auto|apply rely_refl]]]].
      apply N.eqb_eq in X. rewrite N.mod_small by lia. eapply wp_seq; [apply (wp_wcache C L D [w_no sl] s5 (fst aa + 1, snd aa))|].
      - destruct CK as (K1 & K2 & K3 & K4). split; cbn [fst snd]; [lia|]. split; [lia|]. split.
        + intros m Hm. destruct (N.eq_dec m (w_no sl)) as [->|Y]; [congruence|]. apply K3. lia.
        + intros m Hm. destruct (K4 m Hm) as (b' & w' & E' & X'). exists b', w'. split; auto. lia.
      - cbn beta. intros _ o s6 (-> & Rl6 & K). cbn [wp]. split; [auto|]. split; [apply (mine_rely C L [w_no sl] s5 s6); auto|].
        split; [auto|]. eapply rely_nil; eauto. }
    cbn beta. clear aa CK. intros aa o s6 (-> & M6 & CK & Rl6). eapply in_archive_rely in IA; [|exact Rl6].
    unfold wsilo_delete. apply wp_unlink; [auto|apply M6|]. rewrite rm_one. intros s7 Rl7. cbn [wp].
    split; [auto|]. split; [eapply cache_rely; eauto|]. exists (w_no sl), (len wr), h, e.
    split; [eapply in_archive_rely; eauto|]. split; [reflexivity|]. split; [auto|]. split; [auto|]. split; [auto|auto].
Qed.
End Commit.
