(* reindex of an archive at rest finds the same index again. *)
From Coq Require Import String Sorting.Sorted Permutation.
From Coq Require Import ZifyBool ZifyNat ZifyN.
From Verif Require Import Base BaseLemmas ListLemmas IndexModel IndexSpec IndexSysModel IndexProofs IndexHist IndexMain HeaderModel HeaderSpec HeaderProofs
  InflateSpec InflateProofs GzipModel GzipSpec GzipProofs ProgModel StoreModel StoreSpec StoreSysModel StoreWp StoreSys StoreHdr
  StoreWrite StoreCommit StoreJob StoreMain StoreGet StoreWorld StoreCalls StoreAgain StoreOrigin ReindexModel ReindexSpec ReindexProofs.
Open Scope string_scope.
Open Scope list_scope.
Open Scope N_scope.
Ltac Zify.zify_post_hook ::= Z.div_mod_to_equations.

Section Main.
Variable C : conf.
Variable L : zlib.
Hypothesis CO : conf_ok C.
Notation prefix := (c_prefix C).

(** * What the loop makes of one record *)

Definition typ_of (w : wrec) : bytes := match hget (wr_hdr w) "WARC-Type" with Some t => t | None => [] end.
Definition is_last (w : wrec) : bool := match hget (wr_hdr w) "WARC-Segment-Total-Length" with Some _ => true | None => false end.
Definition seg_of (n o : N) (w : wrec) (k : N) : seg :=
  mkSeg (h_id (wr_hdr w)) (type_flag (typ_of w) + 16 + (if k =? 1 then 32 else 0) + (if is_last w then 64 else 0))
    (if k =? 1 then h_id (wr_hdr w) else
     match hget (wr_hdr w) "WARC-Segment-Origin-ID" with
     | Some p => match after_slash p with Some q => q | None => [] end
     | None => [] end)
    n o k (k =? 1) (is_last w).
Definition ev_of (n o : N) (w : wrec) : evt :=
  match hget (wr_hdr w) "WARC-Segment-Number" with
  | None => Plain (OInsert (h_id (wr_hdr w)) (type_flag (typ_of w)) (n mod 2 ^ 32) o None)
  | Some v => Segm (seg_of n o w (undec v))
  end.

Definition readable (w : wrec) : Prop := (exists t, hget (wr_hdr w) "WARC-Type" = Some t) /\
  (hget (wr_hdr w) "WARC-Segment-Number" = None \/ exists id k,
     hget (wr_hdr w) "WARC-Segment-Number" = Some (dec k) /\ 1 <= k < 2 ^ 63 - 1 /\ hexstr id /\
     (k <> 1 -> hget (wr_hdr w) "WARC-Segment-Origin-ID" = Some (str "<" ++ prefix ++ id ++ str ">"))).

Lemma after_app x y : after_slash (x ++ y) = match after_slash y with Some z => Some z | None =>
  match after_slash x with Some z => Some (z ++ y) | None => None end end.
Proof.
  induction x as [|c x IH]; cbn [app after_slash]; [destruct (after_slash y); auto|]. rewrite IH.
  destruct (after_slash y); auto. destruct (after_slash x); auto. destruct (c =? 47); auto.
Qed.

Lemma after_hex id : hexstr id -> after_slash (id ++ str ">") = None.
Proof.
  intros H. rewrite after_app. change (after_slash (str ">")) with (@None bytes). cbv iota.
  replace (after_slash id) with (@None bytes); auto. induction H as [|c l Hc H IH]; auto. cbn [after_slash]. rewrite <- IH.
  destruct (c =? 47) eqn:X; auto. apply N.eqb_eq in X. subst c. discriminate Hc.
Qed.

Lemma after_ref id : hexstr id -> after_slash (str "<" ++ prefix ++ id ++ str ">") = Some (id ++ str ">").
Proof.
  intros H. destruct (co_prefix C CO) as ((_ & _ & q & ->) & _). rewrite <- !app_assoc. rewrite (app_assoc (str "<")).
  change ([47] ++ id ++ str ">") with (47 :: id ++ str ">"). rewrite after_app. cbn [after_slash]. rewrite after_hex by auto. reflexivity.
Qed.

Lemma one_ev n o w segs : readable w -> one_record C (wr_hdr w) o n segs = run_evt C (ev_of n o w) segs.
Proof.
  intros ((t & T) & R). unfold one_record, ev_of, typ_of. pose proof T as T'. unfold hget in T. rewrite T, T'.
  set (fl := if bytes_eqb t (str "warcinfo") then IDX_F_WARCINFO else if bytes_eqb t (str "metadata") then IDX_F_METADATA
             else if bytes_eqb t (str "resource") then IDX_F_RESOURCE else 0).
  assert (FL : fl = type_flag t).
  { unfold fl, type_flag. destruct (bytes_eqb t (str "warcinfo")); [reflexivity|]. destruct (bytes_eqb t (str "metadata")) eqn:X.
    - apply bytes_eqb_true in X. subst t. reflexivity.
    - destruct (bytes_eqb t (str "resource")); reflexivity. }
  rewrite FL. clear fl FL. destruct R as [R|(id & k & R & K & HI & OR)]; rewrite R.
  - unfold hget in R. rewrite (number_none _ _ R). reflexivity.
  - unfold hget in R. rewrite (number_exact _ _ _ R) by apply dec_digits. rewrite dec_value_undec, undec_dec.
    replace (k <? 2 ^ 63) with true by lia. cbn [bind]. replace (Z.of_N k <? 0)%Z with false by lia. rewrite N2Z.id.
    cbn [run_evt]. unfold got_seg, new_seg, seg_of, is_last, Header_Get_Id, hget. cbv zeta.
    assert (F1 : forall x, x = type_flag t -> N.lor x 16 = x + 16 /\ N.lor (x + 16) 32 = x + 16 + 32 /\
       N.lor (x + 16) 64 = x + 16 + 64 /\ N.lor (x + 16 + 32) 64 = x + 16 + 32 + 64).
    { intros x ->. destruct (flag_cases t) as [->|[->|[->| ->]]]; repeat split; reflexivity. }
    destruct (F1 _ eq_refl) as (A1 & A2 & A3 & A4). clear F1. unfold typ_of. rewrite T'.
    change IDX_F_SEGMENTED with 16. change IDX_F_FIRSTSEG with 32. change IDX_F_LASTSEG with 64. rewrite A1.
    destruct (N.eq_dec k 1) as [->|X].
    + change (1 <? 1) with false. change (1 =? 1) with true. cbv iota. cbn [bind]. rewrite A2.
      destruct (Header_Get (wr_hdr w) (str "WARC-Segment-Total-Length")); cbn [bind s_done]; rewrite ?A4, ?N.add_0_r; reflexivity.
    + specialize (OR X). unfold hget in OR. rewrite OR, after_ref by auto. replace (1 <? k) with true by lia.
      replace (k =? 1) with false by lia. cbn [bind].
      destruct (Header_Get (wr_hdr w) (str "WARC-Segment-Total-Length")); cbn [bind s_done]; rewrite ?A3, ?N.add_0_r; reflexivity.
Qed.

Lemma loop_ev n : forall b l a fuel segs, layout C L (len a) b l -> Forall (fun x => readable (snd x)) l ->
  (List.length b < fuel)%nat ->
  silo_loop C fuel (a ++ b) (len a) n segs = run_evts C (map (fun x => ev_of n (fst x) (snd x)) l) segs.
Proof.
  intros b l a fuel segs LY. remember (len a) as o eqn:EO. revert a fuel segs EO.
  induction LY as [o|o r w s l R LY IH]; intros a fuel segs -> F HF; (destruct fuel as [|fuel]; [lia|]); cbn [silo_loop].
  - rewrite app_nil_r. unfold Rsilo_ReadHeader, file_read. rewrite skipn_all2 by (unfold len; lia). rewrite firstn_nil. reflexivity.
  - destruct (read_header C L CO a r s w R) as (H & B & E & BB & RH). rewrite RH. cbn [bind].
    inversion F as [|? ? F1 F2]; subst. cbn [snd fst map run_evts] in *. rewrite one_ev by auto.
    destruct (run_evt C (ev_of n (len a) w) segs) as [(o1, segs1)| | |]; cbn [bind]; auto.
    set (r := H ++ B ++ crnlcrnl) in *.
    assert (NX : (Z.of_N (len a + len H) + Z.of_N (len B) + Z.of_N (len crnlcrnl))%Z = Z.of_N (len (a ++ r))).
    { unfold r. rewrite !len_app. lia. }
    rewrite NX. replace (0 <? Z.of_N (len (a ++ r)))%Z with true
      by (unfold r; rewrite !len_app; change (len crnlcrnl) with 24; lia). cbn [guard bind]. rewrite N2Z.id.
    rewrite (app_assoc a r s), (len_app a r). rewrite (IH (a ++ r)); [reflexivity|rewrite len_app; auto|auto|].
    unfold r in HF. rewrite !app_length in HF. pose proof (eq_refl : len crnlcrnl = 24) as L24. unfold len in L24. lia.
Qed.

Definition ev_part (p : part) : evt := ev_of (p_silo p) (p_off p) (p_rec p).

Lemma run_app vs1 : forall vs2 segs, run_evts C (vs1 ++ vs2) segs =
  let* (o1, segs) := run_evts C vs1 segs in let* (o2, segs) := run_evts C vs2 segs in Ok (o1 ++ o2, segs).
Proof.
  induction vs1 as [|v r IH]; intros vs2 segs; cbn [app run_evts bind].
  - destruct (run_evts C vs2 segs) as [(o & l)| | |]; reflexivity.
  - destruct (run_evt C v segs) as [(o1 & l1)| | |]; cbn [bind]; auto. rewrite IH.
    destruct (run_evts C r l1) as [(o2 & l2)| | |]; cbn [bind]; auto.
    destruct (run_evts C vs2 l2) as [(o3 & l3)| | |]; cbn [bind]; auto. rewrite app_assoc. reflexivity.
Qed.

Lemma ideal_app x y : ideal_ops (x ++ y) = ideal_ops x ++ ideal_ops y.
Proof. induction x as [|[k f s o c|] x IH]; cbn [app ideal_ops]; auto. rewrite IH. reflexivity. Qed.

(* the records of a silo *)
Definition listed (x : N * bytes) (ps : list part) : Prop :=
  layout C L 0 (snd x) (map (fun p => (p_off p, p_rec p)) ps) /\ Forall (fun p => p_silo p = fst x) ps.

Lemma silos_ev l pss : Forall2 listed l pss -> Forall (fun p => readable (p_rec p)) (List.concat pss) ->
  forall segs ops segs', run_evts C (map ev_part (List.concat pss)) segs = Ok (ops, segs') ->
  exists ops', all_silos C l segs = Ok (ops', segs') /\ ideal_ops ops' = ideal_ops ops /\ (Forall ok_op ops -> Forall ok_op ops').
Proof.
  induction 1 as [|(n, b) ps l pss (LY & SN) F IH]; intros RD segs ops segs' E.
  - cbn in E. injection E as <- <-. exists []. split; [auto|]. split; [auto|]. auto.
  - cbn [List.concat] in *. apply Forall_app in RD. destruct RD as (RD1 & RD2). rewrite map_app, run_app in E.
    cbn [all_silos]. unfold silo_iter. cbn [fst snd] in *.
    rewrite (loop_ev n b _ [] _ segs LY); [| |lia].
    2:{ clear - RD1. induction RD1; constructor; auto. }
    assert (EM : map (fun x => ev_of n (fst x) (snd x)) (map (fun p => (p_off p, p_rec p)) ps) = map ev_part ps).
    { rewrite map_map. apply map_ext_in. intros p Hp. rewrite Forall_forall in SN. unfold ev_part. rewrite (SN p Hp). reflexivity. }
    rewrite EM. destruct (run_evts C (map ev_part ps) segs) as [(o1, s1)| | |] eqn:E1; cbn [bind] in E; try discriminate E.
    destruct (run_evts C (map ev_part (List.concat pss)) s1) as [(o2, s2)| | |] eqn:E2; cbn [bind] in E; try discriminate E.
    injection E as <- <-. destruct (IH RD2 _ _ _ E2) as (o3 & E3 & E4 & E5). cbn [bind]. rewrite E3. cbn [bind].
    eexists. split; [reflexivity|]. split; [rewrite !ideal_app, E4; cbn [ideal_ops]; rewrite app_nil_r; reflexivity|].
    intros OK. apply Forall_app in OK. destruct OK as (O1 & O2). apply Forall_app. split; [|auto]. apply Forall_app. split; [auto|]. constructor; [exact I|constructor].
Qed.

(** * All records of the archive *)

Lemma filter_split (f : ixent -> bool) l : Permutation (filter f l ++ filter (fun e => negb (f e)) l) l.
Proof.
  induction l as [|e l IH]; auto. cbn [filter]. destruct (f e); cbn [negb app].
  - apply perm_skip. auto.
  - rewrite <- Permutation_middle. apply perm_skip. auto.
Qed.

Lemma by_silo : forall ns (l : list ixent), NoDup ns -> (forall e, In e l -> In (e_silo e) ns) ->
  Permutation (flat_map (fun n => filter (fun e => e_silo e =? n) l) ns) l.
Proof.
  induction ns as [|n ns IH]; intros l ND H; cbn [flat_map].
  - destruct l as [|e l]; auto. destruct (H e (or_introl eq_refl)).
  - inversion ND as [|? ? N1 N2]; subst. rewrite <- (filter_split (fun e => e_silo e =? n) l) at 2. apply Permutation_app_head.
    rewrite <- (IH (filter (fun e => negb (e_silo e =? n)) l)); auto.
    + apply Permutation_refl'. clear - N1. induction ns as [|m ns IH]; auto. cbn [flat_map]. f_equal; [|apply IH; intros X; apply N1; right; auto].
      assert (NE : m <> n) by (intros ->; apply N1; left; auto). clear IH. induction l as [|e l IHl]; auto. cbn [filter].
      destruct (e_silo e =? m) eqn:A, (e_silo e =? n) eqn:B; cbn [negb filter]; rewrite ?A; [exfalso; lia|f_equal; exact IHl|exact IHl|exact IHl].
    + intros e He. apply filter_In in He. destruct He as (He & X). destruct (H e He) as [Y|Y]; auto. exfalso. rewrite Y, N.eqb_refl in X. discriminate X.
Qed.

Lemma lay_off o b l : layout C L o b l -> NoDup (map fst l) /\ Forall (fun x => o <= fst x) l.
Proof.
  induction 1 as [o|o r w s l R LY (IH1 & IH2)]; [split; constructor|]. cbn [map fst].
  assert (24 <= len r). { destruct R as (H & B & -> & _). rewrite !len_app. change (len crnlcrnl) with 24. lia. }
  split.
  - constructor; auto. intros X. apply in_map_iff in X. destruct X as (x & E & X). rewrite Forall_forall in IH2. specialize (IH2 x X). lia.
  - constructor; [cbn [fst]; lia|]. eapply Forall_impl; [|exact IH2]. cbn beta. intros x. lia.
Qed.

Lemma silo_parts s n b w : inv C L s -> f_hold s n = None -> f_silo s n = Some (b, w) ->
  exists ps, listed (n, b) ps /\ Permutation (map p_ent ps) (entries s n) /\
    Forall (fun p => in_archive C L s (p_silo p) (p_off p) (p_rec p) (p_ent p)) ps.
Proof.
  intros I H F. pose proof (quiet_settled C L s n I H) as S. rewrite F in S. cbn [settled] in S.
  destruct S as (w0 & l0 & es & LY & _ & _ & _ & PM & F2). remember ((0, w0) :: l0) as l. clear l0 w0 Heql.
  exists (map (fun x => mkPart n (fst (fst x)) (snd (fst x)) (snd x)) (combine l es)).
  assert (EL : map fst (combine l es) = l). { clear - F2. induction F2 as [|[o w] e l es E F2 IH]; cbn [combine map fst]; congruence. }
  assert (EE : map snd (combine l es) = es). { clear - F2. induction F2 as [|[o w] e l es E F2 IH]; cbn [combine map snd]; congruence. }
  split; [|split].
  - split.
    + cbn [snd]. rewrite map_map. cbn [p_off p_rec]. rewrite <- EL in LY. replace (map _ (combine l es)) with (map fst (combine l es)); auto.
      apply map_ext. intros ((o, w1), e). reflexivity.
    + apply Forall_forall. intros p Hp. apply in_map_iff in Hp. destruct Hp as (x & <- & _). reflexivity.
  - rewrite map_map. change (map _ (combine l es)) with (map snd (combine l es)). rewrite EE. symmetry. auto.
  - apply Forall_forall. intros p Hp. apply in_map_iff in Hp. destruct Hp as (((o, w1), e) & <- & Hx). cbn [p_silo p_off p_rec p_ent fst snd].
    assert (EN : entry_for n o w1 e).
    { clear - F2 Hx. induction F2 as [|[o' w'] e' l es E F2 IH]; cbn [combine] in Hx; [destruct Hx|]. destruct Hx as [X|X]; auto.
      injection X as -> -> ->. auto. }
    assert (IE : In e (entries s n)).
    { apply Permutation_in with es; [symmetry; auto|]. apply in_combine_r in Hx. auto. }
    apply in_combine_l in Hx. destruct (layout_at C L _ _ _ LY _ _ Hx) as (a & r & z & -> & -> & R).
    split; [apply entries_in in IE; apply IE|]. split; [auto|]. exists (a ++ r ++ z), w, a, r, z. auto.
Qed.

Lemma all_parts s l : inv C L s -> (forall n, f_hold s n = None) -> silos_of s l ->
  exists pss, Forall2 listed l pss /\ Permutation (map p_ent (List.concat pss)) (f_idx s) /\
    Forall (fun p => in_archive C L s (p_silo p) (p_off p) (p_rec p) (p_ent p)) (List.concat pss) /\
    NoDup (map place (List.concat pss)).
Proof.
  intros I H (ND & SL).
  assert (G : forall l, (forall n b, In (n, b) l -> exists w, f_silo s n = Some (b, w)) -> NoDup (map fst l) ->
    exists pss, Forall2 listed l pss /\ Permutation (map p_ent (List.concat pss)) (flat_map (fun n => entries s n) (map fst l)) /\
    Forall (fun p => in_archive C L s (p_silo p) (p_off p) (p_rec p) (p_ent p)) (List.concat pss) /\
    NoDup (map place (List.concat pss)) /\ forall p, In p (List.concat pss) -> In (p_silo p) (map fst l)).
  { clear l ND SL. induction l as [|(n, b) l IH]; intros SL ND.
    - exists []. cbn [List.concat map flat_map]. split; [constructor|]. split; [auto|]. split; [constructor|]. split; [constructor|intros p []].
    - cbn [map fst] in ND. inversion ND as [|? ? N1 N2]; subst.
      destruct IH as (pss & A1 & A2 & A3 & A4 & A5); auto. { intros n' b' X. apply SL. right. auto. }
      destruct (SL n b (or_introl eq_refl)) as (w & F). destruct (silo_parts s n b w I (H n) F) as (ps & B1 & B2 & B3).
      exists (ps :: pss). cbn [List.concat map flat_map fst]. rewrite !map_app. split; [constructor; auto|].
      split; [apply Permutation_app; auto|]. split; [apply Forall_app; auto|]. destruct B1 as (B1 & B1'). cbn [fst snd] in *. rewrite Forall_forall in B1'. split.
      + destruct (lay_off _ _ _ B1) as (LO & _). rewrite map_map in LO. cbn [fst] in LO.
        assert (NP : NoDup (map place ps)).
        { clear - LO. induction ps as [|p ps IH]; cbn [map] in *; [constructor|]. inversion LO as [|? ? X Y]; subst. constructor; auto.
          intros Z. apply X. apply in_map_iff in Z. destruct Z as (q & E & Z). unfold place in E. injection E as _ E. rewrite <- E. apply in_map. auto. }
        assert (DJ : forall x, In x (map place ps) -> ~ In x (map place (List.concat pss))).
        { intros x Hx Hy. apply in_map_iff in Hx, Hy. destruct Hx as (p & <- & Hp), Hy as (q & E & Hq). unfold place in E. injection E as E _.
          apply N1. rewrite <- (B1' p Hp), <- E. auto. }
        clear - NP DJ A4. induction (map place ps) as [|x r IH]; auto. inversion NP as [|? ? X Y]; subst. cbn [app]. constructor.
        * intros Z. apply in_app_iff in Z. destruct Z as [Z|Z]; [auto|]. apply (DJ x); [left; auto|auto].
        * apply IH; auto. intros y Hy. apply DJ. right. auto.
      + intros p Hp. apply in_app_iff in Hp. destruct Hp as [Hp|Hp]; [left; symmetry; auto|right; auto]. }
  destruct (G l) as (pss & A1 & A2 & A3 & A4 & _); [intros n b X; apply SL; auto|auto|].
  exists pss. split; [auto|]. split; [|auto]. rewrite A2. apply by_silo; auto.
  intros e He. assert (IE : In e (entries s (e_silo e))) by (apply filter_In; split; [auto|apply N.eqb_refl]).
  pose proof (quiet_settled C L s (e_silo e) I (H _)) as S. destruct (f_silo s (e_silo e)) as [(b, w)|] eqn:F; cbn [settled] in S.
  - apply in_map_iff. exists (e_silo e, b). split; auto. apply SL. eauto.
  - rewrite S in IE. destruct IE.
Qed.


(** * The segments are complete *)

Section Archive.
Variables (s : fs) (its : list part).
Hypothesis IV : inv C L s.
Hypothesis QU : forall n, f_hold s n = None.
Hypothesis WH : whole C L s.
Hypothesis ON : once C L s.
Hypothesis SZ : N.of_nat (List.length (f_idx s)) < 2 ^ 62.
Hypothesis PM : Permutation (map p_ent its) (f_idx s).
Hypothesis IA : Forall (fun p => in_archive C L s (p_silo p) (p_off p) (p_rec p) (p_ent p)) its.
Hypothesis ND : NoDup (map place its).

Lemma nodup_inj {A B} (f : A -> B) (l : list A) : NoDup (map f l) -> forall x y, In x l -> In y l -> f x = f y -> x = y.
Proof.
  induction l as [|a l IH]; intros N x y Hx Hy E; [destruct Hx|]. cbn [map] in N. inversion N as [|? ? N1 N2]; subst.
  destruct Hx as [->|Hx], Hy as [->|Hy]; auto.
  - exfalso. apply N1. rewrite E. apply in_map. auto.
  - exfalso. apply N1. rewrite <- E. apply in_map. auto.
Qed.

Lemma item_uniq i j : In i its -> In j its -> place i = place j -> i = j.
Proof. apply nodup_inj. exact ND. Qed.

Lemma item_arch i : In i its -> in_archive C L s (p_silo i) (p_off i) (p_rec i) (p_ent i).
Proof. intros H. rewrite Forall_forall in IA. auto. Qed.

Lemma item_at n o w e : in_archive C L s n o w e ->
  exists i, In i its /\ p_ent i = e /\ place i = (n, o) /\ wr_hdr (p_rec i) = wr_hdr w.
Proof.
  intros A. pose proof A as (A1 & A2 & _). apply (Permutation_in _ (Permutation_sym PM)) in A1. apply in_map_iff in A1.
  destruct A1 as (i & E & Hi). exists i. split; [auto|]. split; [auto|]. pose proof (item_arch i Hi) as B. rewrite E in B.
  split; [|eapply same_hdr; eauto]. destruct B as (_ & (B1 & B2 & _) & _), A2 as (C1 & C2 & _). unfold place. congruence.
Qed.

Lemma item_sorted i : In i its -> hsorted (h_fields (wr_hdr (p_rec i))).
Proof. intros H. eapply sorted_in; [exact CO|]. apply item_arch. exact H. Qed.

(* a segment and its object *)
Definition segpos (i : part) (id : bytes) (ps : list part) (j : nat) : Prop := exists data p,
  len id = c_idsize C /\ hexstr id /\ chain C L s id data 1 ps /\ (2 <= List.length ps)%nat /\ N.of_nat (List.length ps) < 2 ^ 62 /\
  nth_error ps j = Some p /\ p_ent i = p_ent p /\ place i = place p /\ wr_hdr (p_rec i) = wr_hdr (p_rec p) /\
  hget (wr_hdr (p_rec i)) "WARC-Segment-Number" = Some (dec (1 + N.of_nat j)) /\
  segment_of C (p_rec i) id (1 + N.of_nat j).

Lemma in_archive_hex n o w e : in_archive C L s n o w e -> hexstr (h_id (wr_hdr w)).
Proof. intros (_ & _ & b & wr & a & r & z & _ & _ & _ & R). destruct R as (H & B & _ & _ & _ & _ & (X & _) & _). exact X. Qed.

Lemma chain_pos id data ps j p : chain C L s id data 1 ps -> nth_error ps j = Some p ->
  in_archive C L s (p_silo p) (p_off p) (p_rec p) (p_ent p) /\ segment_of C (p_rec p) id (1 + N.of_nat j) /\
  hget (wr_hdr (p_rec p)) "WARC-Segment-Number" = Some (dec (1 + N.of_nat j)).
Proof.
  intros CH E. pose proof (chain_parts C L _ _ _ _ _ CH _ _ E) as (A & B & D). split; [auto|]. split.
  - split; [auto|]. destruct (1 + N.of_nat j =? 1); [apply D|apply D].
  - apply has_get; auto. eapply sorted_in; [exact CO|exact A].
Qed.

Lemma chain_bound id data ps : chain C L s id data 1 ps -> (2 <= List.length ps)%nat -> N.of_nat (List.length ps) < 2 ^ 62.
Proof.
  intros CH L2. assert ((List.length ps <= List.length (f_idx s))%nat); [|lia]. 
  rewrite <- (map_length p_ent ps). apply NoDup_incl_length.
  - apply NoDup_nth_error. intros i j Hi E. rewrite map_length in Hi. rewrite !nth_error_map in E.
    destruct (nth_error ps i) as [a|] eqn:Ei; [|apply nth_error_None in Ei; lia]. cbn [option_map] in E.
    destruct (nth_error ps j) as [b|] eqn:Ej; [|discriminate E]. cbn [option_map] in E. injection E as E.
    destruct (chain_pos _ _ _ _ _ CH Ei) as (A1 & _ & A2). destruct (chain_pos _ _ _ _ _ CH Ej) as (B1 & _ & B2).
    rewrite E in A1. pose proof (same_hdr C L CO _ _ _ _ _ _ _ _ A1 B1) as EH. rewrite EH, B2 in A2. injection A2 as A2. apply dec_inj in A2. lia.
  - intros e He. apply in_map_iff in He. destruct He as (p & <- & Hp). apply In_nth_error in Hp. destruct Hp as (j & Hp).
    destruct (chain_pos _ _ _ _ _ CH Hp) as ((A1 & _) & _). exact A1.
Qed.

Lemma chain_hex id data ps : chain C L s id data 1 ps -> hexstr id.
Proof.
  destruct ps as [|p r]; intros CH; [destruct CH|]. destruct (chain_pos _ _ _ 0 p CH eq_refl) as (A & (_ & B) & _).
  change (1 + N.of_nat 0 =? 1) with true in B. cbv iota in B. rewrite <- B. eapply in_archive_hex. exact A.
Qed.

Lemma seg_item i v : In i its -> hget (wr_hdr (p_rec i)) "WARC-Segment-Number" = Some v -> exists id ps j, segpos i id ps j.
Proof.
  intros Hi E. pose proof (item_arch i Hi) as A. apply has_get in E; [|apply item_sorted; auto].
  destruct (WH _ _ _ _ _ A E) as (id & data & ps & p & L1 & CH & L2 & Hp & E1 & E2).
  apply In_nth_error in Hp. destruct Hp as (j & Hj). exists id, ps, j. destruct (chain_pos _ _ _ _ _ CH Hj) as (P1 & P2 & P3).
  destruct (item_at _ _ _ _ P1) as (i' & Hi' & X1 & X2 & X3).
  assert (i' = i) as ->. { apply item_uniq; auto. rewrite X2. unfold place. congruence. }
  exists data, p. split; [auto|]. split; [eapply chain_hex; eauto|]. split; [auto|]. split; [auto|]. split; [eapply chain_bound; eauto|]. split; [auto|]. split; [auto|].
  split; [unfold place; congruence|]. split; [auto|]. split; [rewrite X3; auto|]. unfold segment_of in *. rewrite X3. auto.
Qed.

Lemma readable_all : Forall (fun p => readable (p_rec p)) its.
Proof.
  apply Forall_forall. intros i Hi. pose proof (item_arch i Hi) as A. pose proof (item_sorted i Hi) as S. split.
  - destruct A as (_ & (_ & _ & _ & (t & T & _) & _) & _). exists t. apply has_get; auto.
  - destruct (hget (wr_hdr (p_rec i)) "WARC-Segment-Number") as [v|] eqn:E; [right|left; auto].
    destruct (seg_item i v Hi E) as (id & ps & j & data & p & L1 & HX & CH & L2 & LB & Hj & E1 & E2 & E3 & SN & SO).
    exists id, (1 + N.of_nat j). rewrite <- E, SN. split; [auto|]. assert ((j < List.length ps)%nat) by (apply nth_error_Some; congruence).
    split; [lia|]. split; [auto|]. intros NE. destruct SO as (_ & SO). replace (1 + N.of_nat j =? 1) with false in SO by lia. apply has_get; auto.
Qed.

Lemma hex_last id : hexstr id -> firstn (N.to_nat (len id)) (id ++ str ">") = id.
Proof. intros _. unfold len. rewrite Nat2N.id, firstn_app, Nat.sub_diag, firstn_all. cbn [firstn]. apply app_nil_r. Qed.

Definition sg (i : part) (j : nat) : seg := seg_of (p_silo i) (p_off i) (p_rec i) (1 + N.of_nat j).

Lemma ev_seg i id ps j : segpos i id ps j -> ev_part i = Segm (sg i j).
Proof.
  intros (data & p & L1 & HX & CH & L2 & LB & Hj & E1 & E2 & E3 & SN & SO). unfold ev_part, ev_of. rewrite SN, undec_dec. reflexivity.
Qed.

Lemma par_seg i id ps j : In i its -> segpos i id ps j -> par C (sg i j) = id.
Proof.
  intros Hi (data & p & L1 & HX & CH & L2 & LB & Hj & E1 & E2 & E3 & SN & SO). unfold par, sg, seg_of. cbn [s_parent].
  destruct SO as (_ & SO). destruct (1 + N.of_nat j =? 1).
  - rewrite SO, <- L1. unfold len. rewrite Nat2N.id. apply firstn_all.
  - apply has_get in SO; [|apply item_sorted; auto]. rewrite SO, after_ref by auto. rewrite <- L1. apply hex_last. auto.
Qed.

Definition Q : list seg := segms (map ev_part its).

Lemma in_Q x : In x Q <-> exists i id ps j, In i its /\ segpos i id ps j /\ x = sg i j.
Proof.
  unfold Q, segms. rewrite in_flat_map. split.
  - intros (v & Hv & Hx). apply in_map_iff in Hv. destruct Hv as (i & <- & Hi).
    destruct (hget (wr_hdr (p_rec i)) "WARC-Segment-Number") as [v|] eqn:E.
    + destruct (seg_item i v Hi E) as (id & ps & j & SP). rewrite (ev_seg _ _ _ _ SP) in Hx. destruct Hx as [<-|[]]. exists i, id, ps, j. auto.
    + unfold ev_part, ev_of in Hx. rewrite E in Hx. destruct Hx.
  - intros (i & id & ps & j & Hi & SP & ->). exists (ev_part i). split; [apply in_map; auto|]. rewrite (ev_seg _ _ _ _ SP). left. auto.
Qed.

(* position in the object tells the record *)
Lemma same_pos i i' id ps ps' j : In i its -> In i' its -> segpos i id ps j -> segpos i' id ps' j -> i = i'.
Proof.
  intros Hi Hi' (data & p & L1 & HX & CH & L2 & LB & Hj & E1 & E2 & E3 & SN & SO)
    (data' & p' & L1' & HX' & CH' & L2' & LB' & Hj' & E1' & E2' & E3' & SN' & SO').
  apply item_uniq; auto. destruct (ON _ _ _ _ _ _ _ _ _ _ (item_arch i Hi) (item_arch i' Hi') SO SO') as (A & B). unfold place. congruence.
Qed.

(* the neighbours in the object are there too *)
Lemma pos_other i id ps j j' : segpos i id ps j -> (j' < List.length ps)%nat -> exists i', In i' its /\ segpos i' id ps j'.
Proof.
  intros (data & p & L1 & HX & CH & L2 & LB & Hj & E1 & E2 & E3 & SN & SO) Hj'.
  destruct (nth_error ps j') as [q|] eqn:Eq; [|apply nth_error_None in Eq; lia].
  destruct (chain_pos _ _ _ _ _ CH Eq) as (P1 & P2 & P3). destruct (item_at _ _ _ _ P1) as (i' & Hi' & X1 & X2 & X3).
  exists i'. split; [auto|]. exists data, q. split; [auto|]. split; [auto|]. split; [auto|]. split; [auto|]. split; [auto|]. split; [auto|].
  split; [auto|]. split; [auto|]. split; [auto|]. split; [rewrite X3; auto|]. unfold segment_of in *. rewrite X3. auto.
Qed.

Lemma chain_last id data : forall ps k j p, chain C L s id data k ps -> nth_error ps j = Some p ->
  if (S j =? List.length ps)%nat then has (wr_hdr (p_rec p)) "WARC-Segment-Total-Length" (dec (len data))
  else hasnt (wr_hdr (p_rec p)) "WARC-Segment-Total-Length" /\ exists q, nth_error ps (S j) = Some q /\ e_cont (p_ent p) = pad 8 (p_id q).
Proof.
  induction ps as [|a r IH]; intros k j p CH E; [destruct CH|]. cbn [chain] in CH. destruct CH as (PO & CH). destruct j as [|j]; cbn [nth_error] in E.
  - injection E as <-. destruct r as [|q r]; cbn [List.length Nat.eqb]; [exact CH|]. destruct CH as (A & B & _). split; [auto|]. exists q. auto.
  - destruct r as [|q r]; [destruct j; discriminate E|]. destruct CH as (_ & _ & CH). specialize (IH _ _ _ CH E).
    cbn [List.length Nat.eqb nth_error] in *. exact IH.
Qed.

Lemma last_pos i id ps j : In i its -> segpos i id ps j -> is_last (p_rec i) = (S j =? List.length ps)%nat.
Proof.
  intros Hi (data & p & L1 & HX & CH & L2 & LB & Hj & E1 & E2 & E3 & SN & SO). pose proof (chain_last _ _ _ _ _ _ CH Hj) as X.
  unfold is_last. rewrite E3. destruct (S j =? List.length ps)%nat.
  - apply has_get in X; [rewrite X; auto|]. rewrite <- E3. apply item_sorted. auto.
  - destruct X as (X & _). apply hasnt_get in X. rewrite X. auto.
Qed.

Lemma next_pos i i' id ps j id' ps' j' : In i its -> In i' its -> segpos i id ps j -> segpos i' id' ps' j' ->
  isnext C (sg i j) (sg i' j') = true <-> id' = id /\ j' = S j.
Proof.
  intros Hi Hi' SP SP'. rewrite isnext_iff. rewrite (par_seg _ _ _ _ Hi SP), (par_seg _ _ _ _ Hi' SP'). unfold sg, seg_of. cbn [s_no]. split; intros (A & B); split; auto; lia.
Qed.

Lemma Q_ok : okset C Q.
Proof.
  split; [|split; [|split]].
  - unfold Q. pose proof ND as N. revert N. generalize its. intros l N. induction l as [|i l IH]; [constructor|].
    cbn [map] in *. inversion N as [|? ? N1 N2]; subst. specialize (IH N2).
    change (segms (ev_part i :: map ev_part l)) with (match ev_part i with Plain _ => [] | Segm x => [x] end ++ segms (map ev_part l)).
    destruct (ev_part i) as [o|x] eqn:E; [auto|]. cbn [app]. constructor; auto. intros X. apply N1.
    unfold segms in X. apply in_flat_map in X. destruct X as (v & Hv & X). apply in_map_iff in Hv. destruct Hv as (i' & <- & Hi').
    destruct (ev_part i') as [o'|x'] eqn:E'; [destruct X|]. destruct X as [->|[]]. apply in_map_iff. exists i'. split; auto.
    unfold ev_part, ev_of in E, E'. destruct (hget (wr_hdr (p_rec i)) _); [|discriminate E]. destruct (hget (wr_hdr (p_rec i')) _); [|discriminate E'].
    injection E as E. injection E' as E'. unfold place. rewrite <- E in E'. unfold seg_of in E'. injection E' as _ _ _ A B _ _ _. congruence.
  - intros x y Hx Hy. apply in_Q in Hx, Hy. destruct Hx as (i & id & ps & j & Hi & SP & ->), Hy as (i' & id' & ps' & j' & Hi' & SP' & ->).
    rewrite (par_seg _ _ _ _ Hi SP), (par_seg _ _ _ _ Hi' SP'). intros <-. unfold sg at 1 2, seg_of. cbn [s_no]. intros E.
    assert (j' = j) by lia. subst j'. rewrite (same_pos i i' id ps ps' j); auto.
  - intros x Hx. apply in_Q in Hx. destruct Hx as (i & id & ps & j & Hi & SP & ->). pose proof (last_pos _ _ _ _ Hi SP) as LP.
    destruct SP as (data & p & L1 & HX & CH & L2 & LB & Hj & E1 & E2 & E3 & SN & SO). assert ((j < List.length ps)%nat) by (apply nth_error_Some; congruence).
    unfold sg, seg_of. cbn [s_used s_no s_done]. split; [auto|]. split; [lia|]. rewrite LP.
    destruct (S j =? List.length ps)%nat eqn:X; [|apply andb_false_r]. apply Nat.eqb_eq in X. replace (1 + N.of_nat j =? 1) with false by lia. auto.
  - intros x y Hx Hy E. apply in_Q in Hx, Hy. destruct Hx as (i & id & ps & j & Hi & SP & ->), Hy as (i' & id' & ps' & j' & Hi' & SP' & ->).
    apply (next_pos i i' id ps j id' ps' j') in E; auto. destruct E as (-> & ->).
    pose proof SP' as (data & p & _ & _ & _ & _ & _ & Hj & _). assert ((S j < List.length ps')%nat) by (apply nth_error_Some; congruence).
    destruct (pos_other i' id ps' (S j) j SP' ltac:(lia)) as (i2 & Hi2 & SP2). assert (i2 = i) as -> by (apply (same_pos i2 i id ps' ps j); auto).
    unfold sg, seg_of. cbn [s_done]. rewrite (last_pos _ _ _ _ Hi SP2). apply Nat.eqb_neq. lia.
Qed.

Lemma Q_complete : complete C Q.
Proof.
  intros x Hx. apply in_Q in Hx. destruct Hx as (i & id & ps & j & Hi & SP & ->).
  assert (LJ : (j < List.length ps)%nat) by (destruct SP as (data & p & _ & _ & _ & _ & _ & Hj & _); apply nth_error_Some; congruence). split.
  - unfold sg at 1, seg_of. cbn [s_done]. rewrite (last_pos _ _ _ _ Hi SP). intros X. apply Nat.eqb_neq in X.
    destruct (pos_other i id ps j (S j) SP ltac:(lia)) as (i' & Hi' & SP'). exists (sg i' (S j)). split.
    + apply in_Q. exists i', id, ps, (S j). auto.
    + apply (next_pos i i' id ps j id ps (S j)); auto.
  - unfold sg at 1, seg_of. cbn [s_used]. intros X. destruct j as [|j]; [discriminate X|].
    destruct (pos_other i id ps (S j) j SP ltac:(lia)) as (i' & Hi' & SP'). exists (sg i' j). split.
    + apply in_Q. exists i', id, ps, j. auto.
    + apply (next_pos i' i id ps j id ps (S j)); auto.
Qed.

(** * What is inserted *)

Lemma small_silo i : In i its -> p_silo i mod 2 ^ 32 = e_silo (p_ent i).
Proof.
  intros Hi. pose proof (item_arch i Hi) as (_ & (E & _) & b & wr & _ & _ & _ & F & _). rewrite E.
  apply N.mod_small. destruct IV as ((_ & I2 & _) & _). apply (I2 _ _ _ F).
Qed.

Lemma eta_ent e : mkEnt (e_key e) (e_flags e) (e_silo e) (e_off e) (e_cont e) = e.
Proof. destruct e; reflexivity. Qed.

Definition want (v : evt) : list iop := match v with Plain o => [o] | Segm x => em C (rev Q) x end.

Lemma want_ok i : In i its -> ideal_ops (want (ev_part i)) = [p_ent i].
Proof.
  intros Hi. pose proof (item_arch i Hi) as A. pose proof (item_sorted i Hi) as SO'. pose proof (small_silo i Hi) as SM.
  pose proof A as (_ & (E1 & E2 & E3 & E4 & E5) & _). pose proof E4 as (t & T & _).
  pose proof (flags_val _ _ _ SO' T E4) as FV. apply has_get in T; auto. assert (TY : typ_of (p_rec i) = t) by (unfold typ_of; rewrite T; auto).
  destruct (hget (wr_hdr (p_rec i)) "WARC-Segment-Number") as [v|] eqn:E.
  - destruct (seg_item i v Hi E) as (id & ps & j & SP). rewrite (ev_seg _ _ _ _ SP). cbn [want]. unfold em.
    pose proof (last_pos _ _ _ _ Hi SP) as LP. pose proof SP as (data & p & L1 & HX & CH & L2 & LB & Hj & X1 & X2 & X3 & SN & SO).
    assert (EV : v = dec (1 + N.of_nat j)) by congruence.
    assert (FL : e_flags (p_ent i) = s_flg (sg i j)).
    { rewrite FV, EV. unfold sg, seg_of. cbn [s_flg]. rewrite TY. f_equal; [f_equal|].
      - replace (bytes_eqb (dec (1 + N.of_nat j)) (str "1")) with (1 + N.of_nat j =? 1); auto.
        destruct (1 + N.of_nat j =? 1) eqn:X.
        + apply N.eqb_eq in X. rewrite X. reflexivity.
        + destruct (bytes_eqb (dec (1 + N.of_nat j)) (str "1")) eqn:Y; auto. exfalso. apply bytes_eqb_true in Y.
          change (str "1") with (dec 1) in Y. apply dec_inj in Y. apply N.eqb_neq in X. auto.
      - unfold is_last. destruct (hget _ "WARC-Segment-Total-Length"); auto. }
    unfold sg at 1, seg_of. cbn [s_done]. rewrite LP. destruct (S j =? List.length ps)%nat eqn:X.
    + cbn [ideal_ops put_seg]. unfold ideal. rewrite <- FL. unfold sg, seg_of. cbn [s_id s_silo s_off]. rewrite SM, <- E2, <- E3. change (pad 8 []) with (str "00000000").
      rewrite <- E5, eta_ent; auto. right. unfold is_last in LP. destruct (hget (wr_hdr (p_rec i)) "WARC-Segment-Total-Length") as [v'|] eqn:Y; [|discriminate LP].
      exists v'. apply has_get; auto.
    + apply Nat.eqb_neq in X. assert ((j < List.length ps)%nat) by (apply nth_error_Some; congruence).
      destruct (pos_other i id ps j (S j) SP ltac:(lia)) as (i' & Hi' & SP').
      assert (FN : exists c, find (isnext C (sg i j)) (rev Q) = Some c /\ s_id c = h_id (wr_hdr (p_rec i'))).
      { destruct (find (isnext C (sg i j)) (rev Q)) as [c|] eqn:Y.
        - exists c. split; [auto|]. apply find_some in Y. destruct Y as (Y1 & Y2). apply in_rev in Y1. apply in_Q in Y1.
          destruct Y1 as (i2 & id2 & ps2 & j2 & Hi2 & SP2 & ->). apply (next_pos i i2 id ps j id2 ps2 j2) in Y2; auto. destruct Y2 as (-> & ->).
          rewrite (same_pos i2 i' id ps2 ps (S j)); auto.
        - exfalso. assert (IQ : In (sg i' (S j)) (rev Q)) by (apply -> in_rev; apply in_Q; exists i', id, ps, (S j); auto).
          pose proof (find_none _ _ Y _ IQ) as Z.
          assert (Z' : isnext C (sg i j) (sg i' (S j)) = true) by (apply (next_pos i i' id ps j id ps (S j)); auto). congruence. }
      destruct FN as (c & F1 & F2). rewrite F1. cbn [olist ideal_ops put_seg]. unfold ideal. rewrite <- FL. unfold sg, seg_of. cbn [s_id s_silo s_off].
      rewrite SM, <- E2, <- E3. pose proof (chain_last _ _ _ _ _ _ CH Hj) as CL. apply Nat.eqb_neq in X. rewrite X in CL. destruct CL as (_ & q & Hq & EC).
      rewrite <- X1 in EC. destruct SP' as (data' & p' & _ & _ & _ & _ & _ & Hp' & _ & _ & X3' & _). assert (p' = q) by congruence. subst p'.
      rewrite F2, X3'. fold (p_id q). rewrite <- EC, eta_ent. reflexivity.
  - unfold ev_part, ev_of. rewrite E. cbn [want ideal_ops]. unfold ideal. rewrite TY, <- FV, SM, <- E2, <- E3. change (pad 8 []) with (str "00000000").
    rewrite <- E5, eta_ent; auto. left. apply hasnt_get. auto.
Qed.

Lemma want_all l : Permutation (plains (map ev_part l) ++ flat_map (em C (rev Q)) (segms (map ev_part l))) (flat_map want (map ev_part l)).
Proof.
  induction l as [|i l IH]; cbn [map]; [reflexivity|]. cbn [flat_map]. rewrite <- IH. destruct (ev_part i) as [o|x]; cbn [want].
  - reflexivity.
  - change (plains (Segm x :: map ev_part l)) with (plains (map ev_part l)). change (segms (Segm x :: map ev_part l)) with (x :: segms (map ev_part l)).
    cbn [flat_map]. rewrite !app_assoc. apply Permutation_app_tail. apply Permutation_app_comm.
Qed.

Lemma ideal_perm x y : Permutation x y -> Permutation (ideal_ops x) (ideal_ops y).
Proof.
  induction 1 as [|[k f n o c|] x y P IH|[k f n o c|] [k' f' n' o' c'|] x|x y z P1 IH1 P2 IH2]; cbn [ideal_ops]; auto; try (constructor; auto; fail).
  eapply Permutation_trans; eauto.
Qed.

Lemma item_off i : In i its -> p_silo i < 2 ^ 32 /\ p_off i < 2 ^ 63.
Proof.
  intros Hi. pose proof (item_arch i Hi) as (_ & _ & b & wr & a & r & z & F & -> & <- & _). destruct IV as ((_ & I2 & _) & _).
  specialize (I2 _ _ _ F). pose proof (co_max C CO). rewrite !len_app in I2. lia.
Qed.

Lemma item_hex i : In i its -> hexstr (h_id (wr_hdr (p_rec i))).
Proof. intros Hi. eapply in_archive_hex. apply item_arch. exact Hi. Qed.

Lemma Q_hex x : In x Q -> hexstr (s_id x) /\ s_flg x < 2 ^ 32 /\ s_off x < 2 ^ 63.
Proof.
  intros Hx. apply in_Q in Hx. destruct Hx as (i & id & ps & j & Hi & SP & ->). unfold sg, seg_of. cbn [s_id s_flg s_off].
  split; [apply item_hex; auto|]. split; [|apply item_off; auto].
  destruct (flag_cases (typ_of (p_rec i))) as [->|[->|[->| ->]]]; destruct (1 + N.of_nat j =? 1), (is_last (p_rec i)); reflexivity.
Qed.

Lemma ev_okop i : In i its -> Forall ok_op (want (ev_part i)).
Proof.
  intros Hi. destruct (hget (wr_hdr (p_rec i)) "WARC-Segment-Number") as [v|] eqn:E.
  - destruct (seg_item i v Hi E) as (id & ps & j & SP). rewrite (ev_seg _ _ _ _ SP). cbn [want]. unfold em.
    destruct (Q_hex (sg i j)) as (A & B & D); [apply in_Q; exists i, id, ps, j; auto|].
    assert (M : s_silo (sg i j) mod 2 ^ 32 < 2 ^ 32) by (apply N.mod_lt; discriminate).
    destruct (s_done (sg i j)); [constructor; [|constructor]; cbn [put_seg ok_op]; split; [auto|split; [auto|split; [auto|auto]]]|].
    destruct (find (isnext C (sg i j)) (rev Q)) as [c|] eqn:F; cbn [olist]; [|constructor]. constructor; [|constructor].
    apply find_some in F. destruct F as (F & _). apply in_rev in F. destruct (Q_hex c F) as (F1 & _). cbn [put_seg ok_op].
    split; [auto|split; [auto|split; [auto|split; auto]]].
  - unfold ev_part, ev_of. rewrite E. cbn [want]. constructor; [|constructor]. cbn [ok_op]. split; [apply item_hex; auto|].
    destruct (item_off i Hi) as (A & B). split; [destruct (flag_cases (typ_of (p_rec i))) as [->|[->|[->| ->]]]; reflexivity|].
    split; [apply N.mod_lt; discriminate|]. auto.
Qed.

Lemma run_its : exists ops, run_evts C (map ev_part its) [] = Ok (ops, []) /\ Permutation (ideal_ops ops) (f_idx s) /\ Forall ok_op ops.
Proof.
  destruct (run_complete C (map ev_part its) Q_ok Q_complete) as (ops & E & P). exists ops. split; [auto|].
  fold Q in P. unfold emitted in P.
  assert (P2 : Permutation (plains (map ev_part its) ++ flat_map (em C (rev Q)) (rev Q)) (flat_map want (map ev_part its))).
  { rewrite <- want_all. apply Permutation_app_head. apply Permutation_flat_map. symmetry. apply Permutation_rev. }
  rewrite P2 in P. split.
  - rewrite (ideal_perm _ _ P), <- PM. assert (SUB : forall i, In i its -> ideal_ops (want (ev_part i)) = [p_ent i]) by apply want_ok.
    clear - SUB. induction its as [|i l IH]; cbn [map flat_map]; auto. rewrite ideal_app, SUB by (left; auto). cbn [app]. apply perm_skip. apply IH.
    intros i' Hi'. apply SUB. right. auto.
  - apply Forall_forall. intros o Ho. apply (Permutation_in _ P) in Ho. apply in_flat_map in Ho. destruct Ho as (v & Hv & Ho).
    apply in_map_iff in Hv. destruct Hv as (i & <- & Hi). pose proof (ev_okop i Hi) as F. rewrite Forall_forall in F. auto.
Qed.
End Archive.

Theorem reindex_same s l es : inv C L s -> (forall n, f_hold s n = None) -> whole C L s -> once C L s ->
  N.of_nat (List.length (f_idx s)) < 2 ^ 62 -> silos_of s l ->
  exists ops, main_reindex C es l = Ok (ops, []) /\ Permutation (ideal_ops ops) (f_idx s) /\ Forall ok_op ops.
Proof.
  intros I H W O B S. destruct (all_parts s l I H S) as (pss & A1 & A2 & A3 & A4).
  destruct (run_its s (List.concat pss) I W O B A2 A3 A4) as (ops & R & P & OK).
  destruct (silos_ev l pss A1 (readable_all s _ W B A2 A3 A4) _ _ _ R) as (ops' & E & EI & EO).
  exists ops'. unfold main_reindex. rewrite E. cbn [bind]. split; [auto|]. rewrite EI. auto.
Qed.

(* with the index as it is on disk; it may have had some of the entries before *)
Theorem reindex_disk s l es sort_size ops0 : inv C L s -> (forall n, f_hold s n = None) -> whole C L s -> once C L s ->
  ok_conf (c_idsize C) sort_size -> Forall ok_op ops0 -> incl (ideal_ops ops0) (f_idx s) ->
  N.of_nat (List.length (f_idx s)) + len (ideal_ops ops0) < 2 ^ 38 -> silos_of s l ->
  exists ops st es', main_reindex C es l = Ok (ops, []) /\
    run_ops (c_idsize C) sort_size ifs_empty (ops0 ++ ops) = Ok st /\
    lookup st None = Ok es' /\ (forall e, In e es' <-> In e (f_idx s)).
Proof.
  intros I H W O OC O0 I0 B S. destruct (reindex_same s l es I H W O) as (ops & E & P & OK); [lia|auto|].
  assert (LN : len (ideal_ops (ops0 ++ ops)) < 2 ^ 38).
  { rewrite ideal_app, len_app. apply Permutation_length in P. unfold len in *. rewrite P. lia. }
  destruct (hist_ops (c_idsize C) sort_size (ops0 ++ ops) OC) as (st & L1 & S1 & I1 & R & HI & _ & _ & EL); [apply Forall_app; auto|exact LN|].
  destruct (lookup_all_set _ _ _ _ HI) as (es' & LK & IN). cbn [y_fs] in LK. exists ops, st, es'. split; [auto|]. split; [auto|]. split; [auto|].
  intros e. rewrite IN, EL, ideal_app, in_app_iff. split.
  - intros [X|X]; [auto|]. eapply Permutation_in; eauto.
  - intros X. right. eapply Permutation_in; [symmetry; exact P|auto].
Qed.

(** * Silos given by name *)

Lemma digits_app ds r : Forall (fun c => is_digit c = true) ds -> match r with c :: _ => is_digit c = false | [] => True end ->
  digits_of (ds ++ r) = ds.
Proof.
  intros D R. induction D as [|c l Hc D IH]; cbn [app digits_of].
  - destruct r as [|c r]; auto. cbn [digits_of]. rewrite R. auto.
  - rewrite Hc, IH. auto.
Qed.

Lemma no_slash s : ~ In 47 s -> after_slash s = None.
Proof.
  induction s as [|c s IH]; intros H; auto. cbn [after_slash]. rewrite IH by (intros X; apply H; right; auto).
  replace (c =? 47) with false; auto. symmetry. apply N.eqb_neq. intros ->. apply H. left. auto.
Qed.

Lemma arg_number_ok fn n : named_after fn n -> n < 2 ^ 64 -> arg_number fn = Ok n.
Proof.
  intros (dir & ds & rest & -> & NE & D & <- & NS & R). rewrite dec_value_undec. intros B. unfold arg_number.
  assert (NS' : ~ In 47 (ds ++ rest)).
  { intros X. apply in_app_iff in X. destruct X as [X|X]; auto. rewrite Forall_forall in D. specialize (D 47 X). discriminate D. }
  rewrite after_app. change ([47] ++ ds ++ rest) with (47 :: ds ++ rest). cbn [after_slash]. rewrite (no_slash _ NS'). rewrite N.eqb_refl. f_equal.
  unfold strtoul10. cbv beta zeta. assert (SK : skip_space (ds ++ rest) = ds ++ rest).
  { destruct ds as [|c ds]; [congruence|]. inversion D as [|? ? Dc _]; subst. cbn [app skip_space]. unfold is_digit in Dc.
    replace ((c =? 32) || (9 <=? c) && (c <=? 13)) with false by lia. auto. }
  rewrite SK. assert (E : N.min (undec (digits_of (ds ++ rest))) (2 ^ 64 - 1) = undec ds) by (rewrite digits_app by auto; lia).
  destruct ds as [|c ds]; [congruence|]. inversion D as [|? ? Dc _]; subst. unfold is_digit in Dc. cbn [app] in *.
  assert (48 <= c <= 57) by lia. 
  assert (C1 : c = 48 \/ c = 49 \/ c = 50 \/ c = 51 \/ c = 52 \/ c = 53 \/ c = 54 \/ c = 55 \/ c = 56 \/ c = 57) by lia.
  repeat destruct C1 as [->|C1]; try exact E. subst c. exact E.
Qed.

Lemma named_silos_ok files l : Forall2 (fun f x => named_after (fst f) (fst x) /\ fst x < 2 ^ 64 /\ snd f = snd x) files l ->
  named_silos files = Ok l.
Proof.
  induction 1 as [|(fn, b) (n, b') files l (A & B & E) F IH]; auto. cbn [named_silos fst snd] in *. subst b'.
  rewrite (arg_number_ok fn n A B). cbn [bind]. rewrite IH. reflexivity.
Qed.

Theorem reindex_named es files l : Forall2 (fun f x => named_after (fst f) (fst x) /\ fst x < 2 ^ 64 /\ snd f = snd x) files l ->
  main_reindex_named C es files = main_reindex C es l.
Proof. intros F. unfold main_reindex_named. rewrite (named_silos_ok files l F). reflexivity. Qed.

Lemma reindex_plain es fn b r : ~ In 47 fn -> main_reindex_named C es ((fn, b) :: r) = Abort.
Proof. intros H. unfold main_reindex_named. cbn [named_silos]. unfold arg_number. rewrite (no_slash fn H). reflexivity. Qed.

(** * When all commands have come to their end *)

Hypothesis ZO : zlib_ok L.

Lemma ended_whole x : reach C L x -> (forall j p, In (j, p) (wo_procs x) -> exists a, p = Ret a) -> whole C L (wo_fs x).
Proof.
  intros R HR n o w e v IA SN. pose proof IA as (He & EN & _).
  destruct (reach_oinv C L CO ZO x R) as (owns & ls & W & HP & HN & HE). destruct (HE e He) as (i & Hi).
  destruct (nth_error (wo_procs x) i) as [[j p]|] eqn:N1; [|rewrite (HN i N1) in Hi; destruct Hi].
  pose proof (nth_error_In _ _ N1) as IN. specialize (HP i j p N1). destruct (HR j p IN) as (a & ->).
  assert (FS : flag (e_flags e) IDX_F_SEGMENTED = true).
  { pose proof (sorted_in C L CO _ _ _ _ _ IA) as S. destruct EN as (_ & _ & _ & F & _). pose proof F as (t & T & _).
    rewrite (flags_val _ _ _ S T F). apply has_get in SN; auto. rewrite SN.
    destruct (flag_cases t) as [->|[->|[->| ->]]]; destruct (bytes_eqb _ _), (hget (wr_hdr w) "WARC-Segment-Total-Length"); reflexivity. }
  cbn [tr wp made] in HP. destruct j as [r|z id|k]; cbn [made fst snd] in HP; [|rewrite HP in Hi; destruct Hi|rewrite Forall_forall in HP; destruct (HP e Hi); congruence].
  destruct HP as (b & -> & [E|(id & p & rest & E1 & E2 & E0 & E3 & E4 & _)]); cbn [fst snd] in *; [rewrite E in Hi; destruct Hi|].
  rewrite Forall_forall in E4. destruct (E4 e Hi) as (_ & PL).
  specialize (PL FS). destruct rest as [|q rest]; [destruct PL|]. destruct E3 as (_ & _ & CH).
  apply in_map_iff in PL. destruct PL as (p' & EP & Hp). unfold place in EP. injection EP as P1 P2. destruct EN as (N2 & N3 & _).
  exists id, (List.concat (r_data r)), (p :: q :: rest), p'. split; [auto|]. split; [auto|]. split; [cbn [List.length]; lia|].
  split; [auto|]. split; congruence.
Qed.

Theorem reindex_ended x l es sort_size ops0 : reach C L x -> (forall j p, In (j, p) (wo_procs x) -> exists a, p = Ret a) ->
  once C L (wo_fs x) -> silos_of (wo_fs x) l ->
  ok_conf (c_idsize C) sort_size -> Forall ok_op ops0 -> incl (ideal_ops ops0) (f_idx (wo_fs x)) ->
  N.of_nat (List.length (f_idx (wo_fs x))) + len (ideal_ops ops0) < 2 ^ 38 ->
  exists ops, main_reindex C es l = Ok (ops, []) /\ Permutation (ideal_ops ops) (f_idx (wo_fs x)) /\
    exists st es', run_ops (c_idsize C) sort_size ifs_empty (ops0 ++ ops) = Ok st /\
      lookup st None = Ok es' /\ (forall e, In e es' <-> In e (f_idx (wo_fs x))).
Proof.
  intros R HR O S OC O0 I0 B. pose proof (reach_inv C L CO ZO x R) as I. pose proof (all_done C L CO ZO x R HR) as H.
  pose proof (ended_whole x R HR) as W. destruct (reindex_same (wo_fs x) l es I H W O) as (ops & E & P & _); [lia|auto|].
  exists ops. split; [auto|]. split; [auto|].
  destruct (reindex_disk (wo_fs x) l es sort_size ops0 I H W O OC O0 I0 B S) as (ops' & st & es' & E' & X). exists st, es'.
  assert (ops' = ops) as -> by congruence. exact X.
Qed.
End Main.
