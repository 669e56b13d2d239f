From Coq Require Import Permutation Sorting.Sorted.
From Verif Require Import Base BaseLemmas IndexModel IndexSpec IndexProofs IndexLookup
  IndexSysModel IndexSysSpec IndexMain FilterModel FilterSpec.
Open Scope N_scope.

(** * Iterating with any callback *)

Lemma scan_any {S} (func : idx_cb S) sorted key kp cl recs acc z l s :
  idx_scan collect sorted key kp cl recs acc = Ok (z, l) ->
  z = 0%Z /\ exists l', l = acc ++ l' /\ idx_scan func sorted key kp cl recs s = Ok (run_cb func l' s).
Proof.
  revert acc s; induction recs as [|r recs IH]; intros acc s H.
  - simpl in *. injection H as <- <-. split; auto. exists []. rewrite app_nil_r; auto.
  - cbn [idx_scan] in *. destruct (negb (Nat.eqb (length r) 32)); [discriminate|].
    cbv zeta in *.
    destruct (if Nat.leb 2 cl then _ else _).
    + match goal with |- context [if ?b then idx_scan _ _ _ _ _ _ _ else _] => destruct b end; [auto|].
      destruct (2 ^ 63 <=? e_off (ent_of_rec r)); [discriminate|].
      change (collect acc (ent_of_rec r)) with (0%Z, acc ++ [ent_of_rec r]) in H. cbv iota in H.
      change ((0 =? 0)%Z) with true in H. cbv iota in H.
      destruct (IH _ s H) as (Hz & l1 & -> & _). split; auto.
      exists (ent_of_rec r :: l1). rewrite <- app_assoc. split; auto.
      cbn [run_cb]. destruct (func s (ent_of_rec r)) as [i s'].
      destruct (i =? 0)%Z; auto.
      destruct (IH _ s' H) as (_ & l2 & E & E'). apply app_inv_head in E. subst. auto.
    + auto.
    + destruct sorted; auto. injection H as <- <-. split; auto. exists []. rewrite app_nil_r; auto.
Qed.

Lemma file_any {S} (func : idx_cb S) key kp cl sorted file z0 acc z l :
  iter_file collect key kp cl sorted file (z0, acc) = Ok (z, l) ->
  (z = match file with None => z0 | Some _ => 0%Z end) /\
  exists l', l = acc ++ l' /\ (file = None -> l' = []) /\
    forall s0, iter_file func key kp cl sorted file s0 = Ok (match file with None => s0 | Some _ => run_cb func l' (snd s0) end).
Proof.
  intros H. unfold iter_file in *. destruct file as [f|].
  - destruct (if sorted then bucket_seek kp f else Ok 0) as [pos| | |]; cbn [bind] in *; try discriminate.
    destruct (idx_scan collect sorted key kp cl _ _) as [[z1 l1]| | |] eqn:E; try discriminate.
    injection H as <- <-. cbn [snd] in E.
    destruct (idx_scan collect sorted key kp cl (chunks 32 (skipn (N.to_nat pos) f)) acc) as [[z2 l2]| | |] eqn:E2; try discriminate.
    injection E as <- <-.
    split.
    + destruct (scan_any collect _ _ _ _ _ _ _ _ [] E2). auto.
    + destruct (scan_any collect _ _ _ _ _ _ _ _ [] E2) as (_ & l' & -> & _).
      exists l'. split; auto. split; [discriminate|]. intros [z0' s]. cbn [snd].
      destruct (scan_any func _ _ _ _ _ _ _ _ s E2) as (_ & l'' & Ea & Eb).
      apply app_inv_head in Ea. subst. auto.
  - injection H as <- <-. split; auto. exists []. rewrite app_nil_r. auto.
Qed.

Lemma run_cb_app' {S} (func : idx_cb S) l1 l2 s i s' : run_cb func l1 s = (i, s') ->
  run_cb func (l1 ++ l2) s = if (i =? 0)%Z then run_cb func l2 s' else (i, s').
Proof. intros E. rewrite run_cb_app, E. auto. Qed.

Lemma iter_any {S} (func : idx_cb S) st key l s :
  lookup st key = Ok l -> exists i, IDX_Iter func st key s = Ok (i, snd (run_cb func l s)).
Proof.
  unfold lookup, IDX_Iter. intros H.
  destruct (iter_key key) as [[kp cl]| | |]; cbn [bind] in *; try discriminate.
  destruct (iter_file collect key kp cl true (f_sorted st) ((-1)%Z, [])) as [[z1 l1]| | |] eqn:E1; cbn [bind] in H; try discriminate.
  destruct (file_any func _ _ _ _ _ _ _ _ _ E1) as (Hz1 & m1 & -> & N1 & F1). rewrite F1. cbn [bind].
  unfold iter_next in *. simpl app in *.
  assert (Z1 : match f_sorted st with Some _ => (fst (z1, m1) =? 0)%Z = true | None => True end).
  { destruct (f_sorted st); auto. rewrite Hz1. auto. }
  assert (H' : exists i l0, (let* b := iter_file collect key kp cl false (app_data st) (z1, m1) in
     match app_data st with
     | Some _ => if (fst b =? 0)%Z then iter_file collect key kp cl false (hk_data st) b else Ok b
     | None => iter_file collect key kp cl false (hk_data st) b end) = Ok (i, l0) /\ l0 = l).
  { destruct (f_sorted st); [rewrite Z1 in H|];
    match type of H with bind ?x _ = _ => destruct x as [[i l0]| | |]; try discriminate end;
    injection H as <-; eauto. }
  clear H. destruct H' as (i0 & l0 & H & ->).
  destruct (iter_file collect key kp cl false (app_data st) (z1, m1)) as [[z2 l2]| | |] eqn:E2; cbn [bind] in H; try discriminate.
  destruct (file_any func _ _ _ _ _ _ _ _ _ E2) as (Hz2 & m2 & -> & N2 & F2).
  assert (H' : iter_file collect key kp cl false (hk_data st) (z2, m1 ++ m2) = Ok (i0, l)).
  { destruct (app_data st); auto. subst z2. exact H. }
  clear H. destruct (file_any func _ _ _ _ _ _ _ _ _ H') as (Hz3 & m3 & -> & N3 & F3).
  cbn [snd].
  assert (R : forall z s0, exists i, (let* b := iter_file func key kp cl false (app_data st) (z, s0) in
      match app_data st with
      | Some _ => if (fst b =? 0)%Z then iter_file func key kp cl false (hk_data st) b else Ok b
      | None => iter_file func key kp cl false (hk_data st) b end) = Ok (i, snd (run_cb func (m2 ++ m3) s0))).
  { intros z s0. rewrite F2. cbn [bind snd]. destruct (app_data st).
    - destruct (run_cb func m2 s0) as [i s1] eqn:Er. rewrite (run_cb_app' _ _ _ _ _ _ Er). cbn [fst].
      destruct (i =? 0)%Z eqn:Ei; [|eauto]. rewrite F3. cbn [snd].
      destruct (hk_data st); [destruct (run_cb func m3 s1); eauto|].
      rewrite N3 by auto. simpl. eauto.
    - rewrite N2 by auto. simpl app. rewrite F3. cbn [snd].
      destruct (hk_data st); [destruct (run_cb func m3 s0); eauto|].
      rewrite N3 by auto. simpl. eauto. }
  rewrite <- app_assoc.
  destruct (f_sorted st).
  - destruct (run_cb func m1 s) as [i s1] eqn:Er. rewrite (run_cb_app' _ _ _ _ _ _ Er). cbn [fst].
    destruct (i =? 0)%Z eqn:Ei; [apply R|eauto].
  - rewrite N1 by auto. simpl app. apply R.
Qed.

(** * The walk *)

Lemma prefix_lt key x : lex x key = Lt -> key_matches key x = false.
Proof.
  unfold key_matches, bytes_eqb. intros H. destruct (lexb_eq _ _) eqn:E; auto. exfalso.
  apply lexb_eq_true in E. revert x H E. induction key as [|k key IH]; intros x H E.
  - destruct x; discriminate.
  - destruct x as [|c x]; [discriminate|]. simpl in E. injection E as -> E. simpl in H.
    rewrite N.compare_refl in H. eauto.
Qed.

Lemma past_match key x y : lexle key x -> lexle x y -> key_matches key x = false -> key_matches key y = false.
Proof.
  unfold key_matches, bytes_eqb. intros H1 H2 Hx. destruct (lexb_eq _ key) eqn:E in |- *; auto. exfalso.
  apply lexb_eq_true in E.
  assert (A : lexle (firstn (length key) key) (firstn (length key) x)) by (apply lexle_firstn; auto).
  assert (B : lexle (firstn (length key) x) (firstn (length key) y)) by (apply lexle_firstn; auto).
  rewrite E in B. rewrite firstn_all in A.
  rewrite (lexle_antisym _ _ B A) in Hx.
  assert (lexb_eq key key = true) by (apply lexb_eq_true; auto). congruence.
Qed.

Lemma match_same_len k1 k2 x : length k1 = length k2 -> key_matches k1 x = true -> key_matches k2 x = true -> k1 = k2.
Proof.
  unfold key_matches, bytes_eqb. rewrite !lexb_eq_true. intros -> -> ->. auto.
Qed.

Lemma skip_spec key b r : exists K r', skip_less key b r = (b ++ K, r') /\ r = K ++ r' /\
  Forall (fun c => lex (snd c) key = Lt) K /\ match r' with [] => True | c :: _ => lexle key (snd c) end.
Proof.
  revert b; induction r as [|c r IH]; intros b.
  - exists [], []. rewrite app_nil_r. auto.
  - cbn [skip_less]. destruct (lex (snd c) key) eqn:E.
    + exists [], (c :: r). rewrite app_nil_r. repeat split; auto.
      apply lex_eq in E. rewrite E. apply lexle_refl.
    + destruct (IH (b ++ [c])) as (K & r' & E1 & -> & H1 & H2). exists (c :: K), r'.
      rewrite E1, <- app_assoc. repeat split; auto.
    + exists [], (c :: r). rewrite app_nil_r. repeat split; auto. apply lex_gt_le; auto.
Qed.

Lemma mark_spec check ok key b r fd :
  (forall c, In c r -> key_matches key (snd c) = true -> check (snd c) = Ok (ok (snd c) : bool)) ->
  exists M r', r = M ++ r' /\ Forall (fun c => key_matches key (snd c) = true) M /\
    match r' with [] => True | c :: _ => key_matches key (snd c) = false end /\
    mark check key b r fd = Ok (b ++ filter (fun c => negb (ok (snd c))) M, r', fd ++ map fst (filter (fun c => ok (snd c)) M)).
Proof.
  revert b fd; induction r as [|c r IH]; intros b fd H.
  - exists [], []. rewrite !app_nil_r. auto.
  - cbn [mark]. destruct (key_matches key (snd c)) eqn:E.
    + rewrite H by (simpl; auto). cbn [bind]. destruct (ok (snd c)) eqn:Eo.
      * destruct (IH b (fd ++ [fst c])) as (M & r' & -> & H1 & H2 & H3); [intros; apply H; simpl; auto|].
        exists (c :: M), r'. simpl. rewrite Eo. simpl. rewrite <- app_assoc in H3. auto.
      * destruct (IH (b ++ [c]) fd) as (M & r' & -> & H1 & H2 & H3); [intros; apply H; simpl; auto|].
        exists (c :: M), r'. simpl. rewrite Eo. simpl. rewrite <- app_assoc in H3. auto.
    + exists [], (c :: r). rewrite !app_nil_r. auto.
Qed.

Definition id_le (a b : scand) : Prop := lex (snd a) (snd b) <> Gt.

Lemma ss_app_inv {A} (R : A -> A -> Prop) l1 l2 : StronglySorted R (l1 ++ l2) ->
  StronglySorted R l1 /\ StronglySorted R l2 /\ (forall a b, In a l1 -> In b l2 -> R a b).
Proof.
  induction l1; simpl; intros H.
  - split; [constructor|]. split; auto. intros; contradiction.
  - inversion H as [|? ? H1 H2]; subst. destruct (IHl1 H1) as (A1 & A2 & A3). rewrite Forall_forall in H2.
    split; [constructor; auto; apply Forall_forall; intros; apply H2; apply in_or_app; auto|].
    split; auto. intros x y [->|Hx] Hy; auto. apply H2. apply in_or_app; auto.
Qed.

Lemma ss_sub {A} (R : A -> A -> Prop) p l1 l2 l3 : StronglySorted R (l1 ++ l2 ++ l3) ->
  StronglySorted R (l1 ++ filter p l2 ++ l3).
Proof.
  induction l1 as [|a l1 IH]; simpl; intros H.
  - induction l2 as [|b l2 IH]; simpl in *; auto. inversion H as [|? ? H1 H2]; subst.
    destruct (p b); auto. simpl. constructor; auto. rewrite Forall_forall in *. intros x Hx. apply H2.
    apply in_app_or in Hx. apply in_or_app. destruct Hx as [Hx|Hx]; auto. apply filter_In in Hx. tauto.
  - inversion H as [|? ? H1 H2]; subst. constructor; auto. rewrite Forall_forall in *. intros x Hx. apply H2.
    rewrite !in_app_iff in *. destruct Hx as [Hx|[Hx|Hx]]; auto. apply filter_In in Hx. tauto.
Qed.

Section Walk.
Variable check : ixent -> bytes -> res bool.
Variable ok : ixent -> bytes -> bool.
Variable S0 : list scand.
Variable E : list ixent.            (* all entries *)
Hypothesis nodup : NoDup (map fst S0).
Hypothesis keys24 : forall e, In e E -> length (e_key e) = 24%nat.
Hypothesis check_ok : forall e n id, In e E -> In (n, id) S0 -> key_matches (e_key e) id = true ->
  check e id = Ok (ok e id).
Hypothesis agree : forall e1 e2 n id, In e1 E -> In e2 E -> e_key e1 = e_key e2 -> In (n, id) S0 ->
  key_matches (e_key e1) id = true -> ok e1 id = ok e2 id.

Definition hit (P : list ixent) (id : bytes) : Prop :=
  exists e, In e P /\ key_matches (e_key e) id = true /\ ok e id = true.

Record winv (P : list ixent) (s : fstate) : Prop := {
  wi_sorted : StronglySorted id_le (f_before s ++ f_rest s);
  wi_found : forall n id, In (n, id) S0 -> (In n (f_found s) <-> hit P id);
  wi_left : forall n id, In (n, id) (f_before s ++ f_rest s) <-> In (n, id) S0 /\ ~ In n (f_found s);
  wi_before : forall n id, In (n, id) (f_before s) -> lex id (f_last s) = Lt \/
     exists e, In e P /\ e_key e = f_last s /\ key_matches (e_key e) id = true /\ ok e id = false;
  wi_last : f_before s = [] \/ exists e, In e P /\ e_key e = f_last s }.

Definition wstep (s : fstate) (e : ixent) : res (Z * fstate) :=
  match f_before s, f_rest s with
  | [], [] => Ok (1%Z, s)
  | _, _ =>
      let key := e_key e in
      let '(b, r) := if match f_rest s with [] => true | _ => lexb_lt key (f_last s) end
                     then ([], f_before s ++ f_rest s) else (f_before s, f_rest s) in
      let '(b, r) := skip_less key b r in
      let* (b, r, fd) := mark (check e) key b r (f_found s) in
      Ok (0%Z, mkF b r key fd)
  end.

Lemma S0_fun n id id' : In (n, id) S0 -> In (n, id') S0 -> id = id'.
Proof.
  clear - nodup. induction S0 as [|[m x] l IH]; simpl in *; [tauto|]. inversion nodup as [|? ? N1 N2]; subst.
  assert (K : forall y, In (m, y) l -> False) by (intros y Hy; apply N1; apply in_map_iff; exists (m, y); auto).
  intros [H1|H1] [H2|H2].
  - congruence.
  - injection H1 as -> ->. exfalso; eauto.
  - injection H2 as -> ->. exfalso; eauto.
  - auto.
Qed.

Lemma hit_snoc P e id : hit (P ++ [e]) id <-> hit P id \/ (key_matches (e_key e) id = true /\ ok e id = true).
Proof.
  unfold hit. split.
  - intros (e' & Hi & H). apply in_app_or in Hi. destruct Hi as [Hi|[<-|[]]]; eauto.
  - intros [(e' & Hi & H)|H]; [exists e'|exists e]; rewrite in_app_iff; simpl; auto.
Qed.

(* the general step, for any split of the list such that nothing in the first
   part is hit *)
Lemma step_from P s e b r fd :
  incl P E -> In e E -> winv P s -> fd = f_found s -> b ++ r = f_before s ++ f_rest s ->
  (forall n id, In (n, id) b -> lex id (e_key e) = Lt \/ (key_matches (e_key e) id = true /\ ok e id = false)) ->
  exists s', (let '(b, r) := skip_less (e_key e) b r in
              let* (b, r, fd) := mark (check e) (e_key e) b r fd in Ok (0%Z, mkF b r (e_key e) fd)) = Ok (0%Z, s') /\
    winv (P ++ [e]) s'.
Proof.
  intros HP He [W1 W2 W3 W4 W5] -> Ebr Hb. rewrite <- Ebr in *.
  destruct (skip_spec (e_key e) b r) as (K & r1 & -> & -> & HK & Hr1).
  assert (Hin0 : forall n id, In (n, id) (b ++ K ++ r1) -> In (n, id) S0) by (intros n id H; apply W3 in H; tauto).
  destruct (mark_spec (check e) (ok e) (e_key e) (b ++ K) r1 (f_found s)) as (M & r2 & -> & HM & Hr2 & ->).
  { intros [n id] Hc Hm. apply (check_ok e n id); auto. apply Hin0. rewrite !in_app_iff. auto. }
  cbn [bind]. eexists. split; [reflexivity|].
  rewrite Forall_forall in HK, HM.
  assert (Hno : forall c, In c r2 -> key_matches (e_key e) (snd c) = false).
  { intros c Hc. destruct r2 as [|c0 r2]; [contradiction|].
    assert (Hge : lexle (e_key e) (snd c0)).
    { destruct M as [|m M]; simpl in Hr1; auto.
      destruct (ss_app_inv _ b _ W1) as (_ & W1' & _). destruct (ss_app_inv _ K _ W1') as (_ & W1'' & _).
      simpl in W1''. inversion W1'' as [|? ? _ F]; subst. rewrite Forall_forall in F.
      eapply lexle_trans; [exact Hr1|]. apply F. apply in_or_app; simpl; auto. }
    destruct Hc as [<-|Hc]; auto.
    destruct (ss_app_inv _ b _ W1) as (_ & W1' & _). destruct (ss_app_inv _ K _ W1') as (_ & W1'' & _).
    destruct (ss_app_inv _ M _ W1'') as (_ & W & _). inversion W as [|? ? _ F]; subst. rewrite Forall_forall in F.
    eapply past_match; [exact Hge|apply F; auto|auto]. }
  assert (Hcase : forall n id, In (n, id) (b ++ K ++ M ++ r2) ->
     (key_matches (e_key e) id = true /\ ok e id = true <-> In (n, id) (filter (fun c => ok e (snd c)) M))).
  { intros n id Hin. split.
    - intros [Hm Ho]. apply filter_In. split; auto. rewrite !in_app_iff in Hin.
      destruct Hin as [H|[H|[H|H]]]; auto; exfalso.
      + destruct (Hb _ _ H) as [H'|[_ H']]; [apply prefix_lt in H'|]; congruence.
      + apply HK in H. apply prefix_lt in H. simpl in H. congruence.
      + apply Hno in H. simpl in H. congruence.
    - intros H. apply filter_In in H. destruct H as [H1 H2]. apply HM in H1. auto. }
  constructor; cbn [f_before f_rest f_found f_last].
  - rewrite <- app_assoc. rewrite app_assoc in W1. rewrite <- app_assoc. rewrite app_assoc. apply ss_sub. auto.
  - intros n id Hin. rewrite hit_snoc, in_app_iff, (W2 n id Hin). split.
    + intros [H|H]; auto. apply in_map_iff in H. destruct H as ([n' id'] & En & H). simpl in En. subst n'.
      assert (In (n, id') (b ++ K ++ M ++ r2)) by (rewrite !in_app_iff; apply filter_In in H; tauto).
      rewrite (S0_fun n id id' Hin (Hin0 _ _ H0)). right. apply (Hcase n id'); auto.
    + intros [H|H]; auto.
      destruct (in_dec Nat.eq_dec n (f_found s)) as [Hd|Hd]; [left; apply (W2 n id Hin); auto|].
      right. apply in_map_iff. exists (n, id). split; auto. apply Hcase; auto. apply W3; auto.
  - intros n id. rewrite !in_app_iff. split.
    + intros H.
      assert (Hin : In (n, id) (b ++ K ++ M ++ r2)) by (rewrite !in_app_iff; destruct H as [[[H|H]|H]|H]; auto; apply filter_In in H; tauto).
      apply W3 in Hin as Hin'. split; [tauto|]. intros [Hf|Hf]; [tauto|].
      apply in_map_iff in Hf. destruct Hf as ([n' id'] & En & Hf). simpl in En. subst n'.
      assert (Hi' : In (n, id') (b ++ K ++ M ++ r2)) by (rewrite !in_app_iff; apply filter_In in Hf; tauto).
      rewrite <- (S0_fun n id id') in Hf by (auto; tauto). apply (Hcase n id Hin) in Hf. destruct Hf as [Hm Ho].
      destruct H as [[[H|H]|H]|H].
      * destruct (Hb _ _ H) as [H'|[_ H']]; [apply prefix_lt in H'|]; congruence.
      * apply HK in H. apply prefix_lt in H. simpl in H. congruence.
      * apply filter_In in H. destruct H as [_ H]. simpl in H. rewrite Ho in H. discriminate.
      * apply Hno in H. simpl in H. congruence.
    + intros [Hin Hn]. assert (H : In (n, id) (b ++ K ++ M ++ r2)) by (apply W3; tauto).
      rewrite !in_app_iff in H. destruct H as [H|[H|[H|H]]]; auto.
      destruct (ok e id) eqn:Eo.
      * exfalso. apply Hn. right. apply in_map_iff. exists (n, id). split; auto. apply filter_In. auto.
      * left; right. apply filter_In. split; auto. simpl. rewrite Eo. auto.
  - intros n id. rewrite !in_app_iff. intros [[H|H]|H].
    + destruct (Hb _ _ H) as [H'|H']; auto. right. exists e. rewrite in_app_iff. simpl. intuition.
    + left. apply (HK _ H).
    + apply filter_In in H. destruct H as [H Ho]. right. exists e. rewrite in_app_iff. simpl in *.
      apply HM in H. simpl in H. apply negb_true_iff in Ho. intuition.
  - right. exists e. rewrite in_app_iff. simpl. auto.
Qed.

Lemma wstep_ok P s e : incl P E -> In e E -> winv P s ->
  (f_before s = [] /\ f_rest s = [] /\ wstep s e = Ok (1%Z, s)) \/
  exists s', wstep s e = Ok (0%Z, s') /\ winv (P ++ [e]) s'.
Proof.
  intros HP He W.
  assert (D : f_before s = [] /\ f_rest s = [] \/ f_before s ++ f_rest s <> []).
  { destruct (f_before s), (f_rest s); simpl; auto; right; discriminate. }
  destruct D as [[D1 D2]|D].
  - left. unfold wstep. rewrite D1, D2. auto.
  - right.
    assert (Ew : wstep s e = 
      let '(b, r) := if match f_rest s with [] => true | _ => lexb_lt (e_key e) (f_last s) end
                     then ([], f_before s ++ f_rest s) else (f_before s, f_rest s) in
      (let '(b, r) := skip_less (e_key e) b r in
       let* (b, r, fd) := mark (check e) (e_key e) b r (f_found s) in Ok (0%Z, mkF b r (e_key e) fd))).
    { unfold wstep. destruct (f_before s), (f_rest s); auto. exfalso. apply D; auto. }
    rewrite Ew.
    destruct (match f_rest s with [] => true | _ => lexb_lt (e_key e) (f_last s) end) eqn:Ec.
    + apply (step_from P s e [] (f_before s ++ f_rest s)); auto. intros n id [].
    + apply (step_from P s e (f_before s) (f_rest s)); auto.
      intros n id Hin.
      assert (Hle : lexle (f_last s) (e_key e)).
      { destruct (f_rest s); [discriminate|]. unfold lexb_lt in Ec. unfold lexle. rewrite lex_antisym.
        destruct (lex (e_key e) (f_last s)); simpl; congruence. }
      assert (HS : In (n, id) S0) by (apply (wi_left _ _ W); rewrite in_app_iff; auto).
      destruct (wi_before _ _ W _ _ Hin) as [H|(e' & H1 & H2 & H3 & H4)].
      * left. unfold lexle in Hle. destruct (lex (f_last s) (e_key e)) eqn:El; [|eapply lex_trans_lt; eauto|congruence].
        apply lex_eq in El. rewrite <- El. auto.
      * destruct (lex (f_last s) (e_key e)) eqn:El; [| |congruence].
        -- apply lex_eq in El. right. rewrite <- El, <- H2. split; auto.
           rewrite (agree e e' n id); auto; congruence.
        -- left.
           (* id starts with last < key, same length *)
           rewrite <- H2 in El. clear - El H3 H1 HP He keys24.
           assert (L : length (e_key e') = length (e_key e)) by (rewrite !keys24; auto).
           unfold key_matches, bytes_eqb in H3. apply lexb_eq_true in H3.
           revert H3 El L. generalize (e_key e) (e_key e'). clear. intros k k' H3 El L.
           revert k k' H3 El L. induction id as [|c id IH]; intros k k' H3 El L.
           ++ destruct k'; simpl in *; [destruct k; discriminate|discriminate].
           ++ destruct k' as [|d k']; simpl in *; [destruct k; discriminate|]. destruct k as [|d' k]; [discriminate|].
              injection H3 as -> H3. simpl in *. destruct (d ?= d'); auto. eapply IH; eauto.
Qed.

Lemma walk_ok : forall l P s, incl (P ++ l) E -> winv P s ->
  exists s', snd (run_cb (fun s e => match s with
             | Ok st => match wstep st e with
                        | Ok (i, st') => (i, Ok st')
                        | Abort => (1%Z, Abort) | UB => (1%Z, UB) | Fuel => (1%Z, Fuel)
                        end
             | x => (1%Z, x) end) l (Ok s)) = Ok s' /\
    forall n id, In (n, id) S0 -> (In n (f_found s') <-> hit (P ++ l) id).
Proof.
  induction l as [|e l IH]; intros P s HE W.
  - exists s. rewrite app_nil_r. split; auto. apply (wi_found _ _ W).
  - cbn [run_cb].
    destruct (wstep_ok P s e) as [(B & R & ->)|(s' & -> & W')]; auto.
    + intros x Hx. apply HE. apply in_or_app; auto.
    + apply HE. apply in_or_app; simpl; auto.
    + cbn. exists s. split; auto. intros n id Hin.
      assert (Hf : In n (f_found s)).
      { destruct (in_dec Nat.eq_dec n (f_found s)) as [Hd|Hd]; auto. exfalso.
        assert (In (n, id) (f_before s ++ f_rest s)) by (apply (wi_left _ _ W); auto).
        rewrite B, R in H. auto. }
      split; auto. intros _. apply (wi_found _ _ W n id Hin) in Hf. destruct Hf as (e' & H1 & H2).
      exists e'. rewrite in_app_iff. auto.
    + change (0 =? 0)%Z with true. cbv iota. 
      destruct (IH (P ++ [e]) s') as (s'' & E1 & E2); auto.
      { intros x Hx. apply HE. rewrite <- app_assoc in Hx. auto. }
      exists s''. split; auto. intros n id Hin. rewrite (E2 n id Hin). rewrite <- app_assoc. simpl. tauto.
Qed.
End Walk.

(** * The input *)

Lemma take_line_ok s rest room : plain s -> (length s + 1 <= room)%nat ->
  take_line room (s ++ 10 :: rest) = (s ++ [10], rest).
Proof.
  intros H. revert room; induction H as [|c s [_ Hc] _ IH]; intros room Hr.
  - destruct room; simpl in Hr; [lia|]. auto.
  - destruct room; simpl in Hr; [lia|]. cbn [app take_line].
    replace (c =? 10) with false by (symmetry; apply N.eqb_neq; auto). rewrite IH by lia. auto.
Qed.

Lemma take_line_cut s rest room : plain s -> length s = room -> take_line room (s ++ rest) = (s, rest).
Proof.
  intros H. revert room; induction H as [|c s [_ Hc] _ IH]; intros room Hr; simpl in Hr; subst.
  - destruct rest; auto.
  - cbn [app take_line length]. replace (c =? 10) with false by (symmetry; apply N.eqb_neq; auto). rewrite IH by auto. auto.
Qed.

Lemma take_line_end s room : plain s -> (length s <= room)%nat -> take_line room s = (s, []).
Proof.
  intros H. revert room; induction H as [|c s [_ Hc] _ IH]; intros room Hr; simpl in Hr.
  - destruct room; auto.
  - destruct room; [lia|]. cbn [take_line]. replace (c =? 10) with false by (symmetry; apply N.eqb_neq; auto).
    rewrite IH by lia. auto.
Qed.

Lemma c_string_plain s t : plain s -> c_string (s ++ t) = s ++ c_string t.
Proof.
  induction 1 as [|c s [Hc _] _ IH]; auto. cbn [app c_string].
  replace (c =? 0) with false by (symmetry; apply N.eqb_neq; auto). rewrite IH. auto.
Qed.

Lemma to_lower_hex c d : to_lower c = to_lower d -> is_hex c = is_hex d.
Proof. intros H. rewrite <- (is_hex_lower c), <- (is_hex_lower d). rewrite H. auto. Qed.

Lemma nth_error_lower s i : nth_error (lower s) i = option_map to_lower (nth_error s i).
Proof. unfold lower. apply nth_error_map. Qed.

Lemma firstn_lower n s : firstn n (lower s) = lower (firstn n s).
Proof. unfold lower. apply firstn_map. Qed.

Lemma nth_error_firstn {A} n (l : list A) i : (i < n)%nat -> nth_error (firstn n l) i = nth_error l i.
Proof. revert l i; induction n; intros l i H; [lia|]. destruct l, i; simpl; auto. apply IHn. lia. Qed.

Lemma strip_yes prefix p s : lower p = lower prefix -> strip_prefix prefix (p ++ s) = s.
Proof.
  intros H. assert (L : length p = length prefix) by (rewrite <- (map_length to_lower p), <- (map_length to_lower prefix); unfold lower in H; congruence).
  unfold strip_prefix, ncaseeq. rewrite <- L, firstn_app, firstn_all, Nat.sub_diag, firstn_O, app_nil_r.
  rewrite L, firstn_all. replace (caseeq p prefix) with true by (symmetry; apply caseeq_true; auto).
  rewrite <- L, skipn_app, skipn_all, Nat.sub_diag. auto.
Qed.

Lemma strip_no prefix id s : hexstr id -> no_hex_prefix prefix (len id) -> strip_prefix prefix (id ++ s) = id ++ s.
Proof.
  intros Hh (a & c & b & -> & Hc & La). unfold strip_prefix, ncaseeq.
  destruct (caseeq _ _) eqn:E; auto. exfalso. apply caseeq_true in E. rewrite firstn_all in E.
  assert (Hn : nth_error (lower (firstn (length (a ++ c :: b)) (id ++ s))) (length a) = nth_error (lower (a ++ c :: b)) (length a)) by (rewrite E; auto).
  rewrite !nth_error_lower in Hn. rewrite nth_error_firstn in Hn by (rewrite app_length; simpl; lia).
  rewrite (nth_error_app2 a) in Hn by lia. rewrite Nat.sub_diag in Hn. simpl in Hn.
  unfold len in La. rewrite nth_error_app1 in Hn by lia.
  destruct (nth_error id (length a)) as [d|] eqn:Ed; [|discriminate]. simpl in Hn. injection Hn as Hn.
  apply to_lower_hex in Hn. unfold hexstr in Hh. rewrite Forall_forall in Hh.
  rewrite (Hh d) in Hn by (eapply nth_error_In; eauto). congruence.
Qed.

Definition g_cand (g : given) : list cand :=
  match g with Blank => [] | Given p id t => [mkCand id (p ++ id ++ t)] end.

Lemma hexstr_forallb s : hexstr s -> forallb is_hex s = true.
Proof. intros H. apply forallb_forall. unfold hexstr in H. rewrite Forall_forall in H. auto. Qed.

Lemma read_line_good bufsiz prefix id_size g : 0 < id_size -> no_hex_prefix prefix id_size ->
  good_given bufsiz prefix id_size g ->
  read_line prefix id_size (text g) =
    Ok match g with Blank => LBlank | Given p id t => LCand (mkCand id (p ++ id ++ t)) end.
Proof.
  intros H0 Hp (H1 & H2 & H3). unfold read_line, text.
  rewrite c_string_plain by auto. cbn [c_string]. change (10 =? 0) with false. cbv iota.
  rewrite rev_app_distr. cbn [rev app]. change (10 =? 10) with true. cbn [negb]. rewrite rev_involutive.
  destruct g as [|p id t]; auto. cbn [g_line] in *. destruct H3 as (Hpp & Hh & Hl).
  assert (Es : strip_prefix prefix (p ++ id ++ t) = id ++ t).
  { destruct Hpp as [->|Hpp]; [|apply strip_yes; auto]. rewrite app_nil_l. apply strip_no; auto. rewrite Hl; auto. }
  destruct (p ++ id ++ t) as [|c0 l0] eqn:E.
  { exfalso. apply app_eq_nil in E. destruct E as [_ E]. apply app_eq_nil in E. destruct E as [E _].
    subst. unfold len in H0. simpl in H0. lia. }
  rewrite Es.
  replace (len (id ++ t) <? id_size) with false by (symmetry; apply N.ltb_ge; unfold len in *; rewrite app_length; lia).
  replace (N.to_nat id_size) with (length id) by (unfold len in Hl; lia).
  rewrite firstn_app, firstn_all, Nat.sub_diag, firstn_O, app_nil_r.
  rewrite hexstr_forallb by auto. auto.
Qed.

Lemma read_file_good bufsiz prefix id_size gs more fuel : 0 < id_size -> no_hex_prefix prefix id_size ->
  Forall (good_given bufsiz prefix id_size) gs -> (length gs <= fuel)%nat ->
  read_file fuel bufsiz prefix id_size (flat_map text gs ++ more) =
    let* r := read_file (fuel - length gs) bufsiz prefix id_size more in
    Ok (option_map (app (flat_map g_cand gs)) r).
Proof.
  intros H0 Hp H. revert fuel. induction H as [|g gs Hg _ IH]; intros fuel Hf.
  - simpl. rewrite Nat.sub_0_r. destruct (read_file fuel bufsiz prefix id_size more) as [[?|]| | |]; auto.
  - simpl in Hf. destruct fuel as [|fuel]; [lia|]. cbn [flat_map]. rewrite <- app_assoc. unfold text at 1. rewrite <- app_assoc. simpl app.
    assert (X : exists c l, g_line g ++ 10 :: flat_map text gs ++ more = c :: l) by (destruct (g_line g); simpl; eauto).
    destruct X as (c & l & X). rewrite X. cbn [read_file]. rewrite <- X. clear c l X.
    assert (Hg' := Hg). destruct Hg' as (H1 & H2 & _). unfold text in H2. rewrite app_length in H2. simpl in H2.
    rewrite take_line_ok by (auto; lia). change (g_line g ++ [10]) with (text g).
    rewrite (read_line_good bufsiz) by auto. cbn [bind]. 
    rewrite IH by lia. change (S fuel - length (g :: gs))%nat with (fuel - length gs)%nat.
    destruct g; cbn [g_cand app].
    + auto.
    + destruct (read_file (fuel - length gs) bufsiz prefix id_size more) as [[?|]| | |]; auto.
Qed.

Lemma read_files_good bufsiz prefix id_size gss : 0 < id_size -> no_hex_prefix prefix id_size ->
  Forall (Forall (good_given bufsiz prefix id_size)) gss ->
  read_files bufsiz prefix id_size (map (flat_map text) gss) = Ok (Some (flat_map g_cand (concat gss))).
Proof.
  intros H0 Hp H. induction H as [|gs gss Hg _ IH]; auto.
  cbn [map read_files]. rewrite <- (app_nil_r (flat_map text gs)) at 2.
  assert (Hl : (length gs <= length (flat_map text gs))%nat).
  { clear. induction gs; simpl; auto. rewrite app_length. unfold text at 1. rewrite app_length. simpl. lia. }
  rewrite read_file_good by auto. 
  replace (read_file (length (flat_map text gs) - length gs) bufsiz prefix id_size []) with (Ok (Some ([] : list cand)))
    by (destruct (length (flat_map text gs) - length gs)%nat; auto).
  cbn [bind option_map]. rewrite IH. cbn [bind option_map concat]. rewrite app_nil_r, flat_map_app. auto.
Qed.

Lemma read_files_bad bufsiz prefix id_size gss gs bad more : 0 < id_size -> no_hex_prefix prefix id_size ->
  Forall (Forall (good_given bufsiz prefix id_size)) gss -> Forall (good_given bufsiz prefix id_size) gs ->
  refused bufsiz prefix id_size bad ->
  read_files bufsiz prefix id_size (map (flat_map text) gss ++ (flat_map text gs ++ bad) :: more) = Ok None.
Proof.
  intros H0 Hp H Hg Hb. induction H as [|gs0 gss Hg0 _ IH].
  - cbn [map app read_files].
    assert (Hl : (length gs < length (flat_map text gs ++ bad))%nat).
    { assert (bad <> []) by (destruct Hb as [[|] ? ? ?|[|] ? ? ?|]; simpl; congruence).
      clear - H. rewrite app_length. destruct bad; [congruence|]. simpl.
      assert (length gs <= length (flat_map text gs))%nat; [|lia].
      induction gs; simpl; auto. rewrite app_length. unfold text at 1. rewrite app_length. simpl. lia. }
    rewrite read_file_good by (auto; lia).
    assert (E : forall f, (0 < f)%nat -> read_file f bufsiz prefix id_size bad = Ok None).
    { intros f Hf. destruct f as [|f]; [lia|].
      destruct Hb as [s m Hs Hpl Hlen Hno|s m Hpl Hs Hlen|s Hpl Hs Hlen].
      - destruct s as [|c s]; [congruence|]. cbn [read_file app].
        change (c :: s ++ 10 :: m) with ((c :: s) ++ 10 :: m).
        rewrite take_line_ok by (auto; simpl in *; lia).
        unfold read_line. rewrite c_string_plain by auto. cbn [c_string]. change (10 =? 0) with false. cbv iota.
        rewrite rev_app_distr. cbn [rev app]. change (10 =? 10) with true. cbn [negb].
        change (rev s ++ [c]) with (rev (c :: s)). rewrite rev_involutive.
        set (L := c :: s) in *.
        assert (Hcase : exists p id' , L = p ++ id' /\ strip_prefix prefix L = id' /\ (p = [] \/ lower p = lower prefix)).
        { unfold strip_prefix. destruct (ncaseeq (length prefix) L prefix) eqn:E.
          - exists (firstn (length prefix) L), (skipn (length prefix) L). rewrite firstn_skipn. split; auto. split; auto.
            right. unfold ncaseeq in E. apply caseeq_true in E. rewrite E, firstn_all. auto.
          - exists [], L. auto. }
        destruct Hcase as (p & id' & EL & -> & Hpp).
        destruct (len id' <? id_size) eqn:El; [auto|]. apply N.ltb_ge in El.
        destruct (forallb is_hex (firstn (N.to_nat id_size) id')) eqn:Eh; [|auto]. exfalso.
        apply (Hno p (firstn (N.to_nat id_size) id') (skipn (N.to_nat id_size) id')).
        + rewrite firstn_skipn. auto.
        + split; [cbn [g_line]; rewrite firstn_skipn, <- EL; auto|]. split.
          * unfold text. cbn [g_line]. rewrite firstn_skipn, <- EL, app_length. simpl length at 2. lia.
          * split; auto. split.
            -- unfold hexstr. apply Forall_forall. rewrite forallb_forall in Eh. auto.
            -- unfold len in *. rewrite firstn_length. lia.
      - destruct s as [|c s]; [congruence|]. cbn [read_file app].
        change (c :: s ++ m) with ((c :: s) ++ m). rewrite take_line_cut by (auto; lia).
        unfold read_line. rewrite <- (app_nil_r (c :: s)). rewrite c_string_plain by auto. cbn [c_string]. rewrite app_nil_r.
        destruct (rev (c :: s)) as [|d r] eqn:Er.
        { apply (f_equal (@length N)) in Er. rewrite rev_length in Er. discriminate. }
        assert (Hd : In d (c :: s)) by (apply in_rev; rewrite Er; simpl; auto).
        unfold plain in Hpl. rewrite Forall_forall in Hpl. destruct (Hpl d Hd) as [_ Hd'].
        replace (d =? 10) with false by (symmetry; apply N.eqb_neq; auto). auto.
      - destruct s as [|c s]; [congruence|]. cbn [read_file].
        rewrite take_line_end by (auto; lia).
        unfold read_line. rewrite <- (app_nil_r (c :: s)). rewrite c_string_plain by auto. cbn [c_string]. rewrite app_nil_r.
        destruct (rev (c :: s)) as [|d r] eqn:Er.
        { apply (f_equal (@length N)) in Er. rewrite rev_length in Er. discriminate. }
        assert (Hd : In d (c :: s)) by (apply in_rev; rewrite Er; simpl; auto).
        unfold plain in Hpl. rewrite Forall_forall in Hpl. destruct (Hpl d Hd) as [_ Hd'].
        replace (d =? 10) with false by (symmetry; apply N.eqb_neq; auto). auto. }
    rewrite E by lia. auto.
  - cbn [map app read_files]. rewrite <- (app_nil_r (flat_map text gs0)) at 2.
    assert (Hl : (length gs0 <= length (flat_map text gs0))%nat).
    { clear. induction gs0; simpl; auto. rewrite app_length. unfold text at 1. rewrite app_length. simpl. lia. }
    rewrite read_file_good by auto.
    replace (read_file (length (flat_map text gs0) - length gs0) bufsiz prefix id_size []) with (Ok (Some ([] : list cand)))
      by (destruct (length (flat_map text gs0) - length gs0)%nat; auto).
    cbn [bind option_map]. rewrite IH. auto.
Qed.

(** * The output *)

Lemma report_map r v fd n cs : report r v fd n cs =
  flat_map (fun x => let f := existsb (Nat.eqb (fst x)) fd in
     if v : bool then (if f then [49] else [48]) ++ [32] ++ cd_line (snd x) ++ [10]
     else if Bool.eqb r f then cd_line (snd x) ++ [10] else []) (combine (seq n (length cs)) cs).
Proof. revert n; induction cs as [|c cs IH]; intros n; auto. cbn [report length seq combine flat_map fst snd]. rewrite IH. auto. Qed.

Lemma report_ok r v fd there : forall gs n,
  (forall i c, nth_error (flat_map g_cand gs) i = Some c -> existsb (Nat.eqb (n + i)) fd = there (cd_id c)) ->
  report r v fd n (flat_map g_cand gs) = flat_map (answer r v there) gs.
Proof.
  induction gs as [|g gs IH]; intros n H; auto.
  destruct g as [|p id t]; cbn [flat_map g_cand app answer] in *.
  - apply IH. auto.
  - cbn [report]. rewrite IH.
    + f_equal. specialize (H 0%nat (mkCand id (p ++ id ++ t)) eq_refl). rewrite Nat.add_0_r in H. cbn [cd_id] in H. rewrite H.
      unfold text. cbn [g_line cd_line]. destruct v.
      * destruct (there id); auto.
      * rewrite Bool.eqb_reflx || (destruct r, (there id); auto).
    + intros i c Hi. specialize (H (S i) c Hi). replace (S n + i)%nat with (n + S i)%nat by lia. auto.
Qed.

Lemma in_numbered l n id : In (n, id) (numbered l) <-> exists c, nth_error l n = Some c /\ cd_id c = id.
Proof.
  unfold numbered.
  enough (H : forall k, In (n, id) (combine (seq k (length l)) (map cd_id l)) <->
     (k <= n)%nat /\ exists c, nth_error l (n - k) = Some c /\ cd_id c = id).
  { rewrite H. rewrite Nat.sub_0_r. split; [tauto|]. intros; split; auto; lia. }
  induction l as [|c l IH]; intros k; cbn [length seq map combine].
  - split; [intros []|]. intros (_ & c & H & _). destruct (n - k)%nat; discriminate.
  - cbn [In]. rewrite IH. split.
    + intros [H|(H & c' & H1 & H2)].
      * injection H as H1 H2. subst. split; auto. rewrite Nat.sub_diag. exists c; auto.
      * split; [lia|]. exists c'. replace (n - k)%nat with (S (n - S k)) by lia. auto.
    + intros (H & c' & H1 & H2). destruct (Nat.eq_dec k n) as [->|Hn].
      * rewrite Nat.sub_diag in H1. injection H1 as ->. left. subst; auto.
      * right. split; [lia|]. exists c'. replace (n - k)%nat with (S (n - S k)) in H1 by lia. auto.
Qed.

Lemma fst_numbered l : map fst (numbered l) = seq 0 (length l).
Proof.
  unfold numbered. assert (E : length (seq 0 (length l)) = length (map cd_id l)) by (rewrite seq_length, map_length; auto).
  revert E. generalize (seq 0 (length l)) (map cd_id l). induction l0 as [|x xs IH]; intros [|y ys] E; simpl in *; try discriminate; auto.
  f_equal. auto.
Qed.

Lemma sorted_already l : needs_sort l = false -> StronglySorted id_le (numbered l).
Proof.
  unfold numbered. generalize 0%nat. induction l as [|a l IH]; intros k H; [constructor|].
  cbn [length seq map combine]. 
  assert (H' : needs_sort l = false /\ match l with [] => True | b :: _ => lex (cd_id a) (cd_id b) <> Gt end).
  { destruct l as [|b l]; auto. cbn [needs_sort] in H. destruct (lex (cd_id a) (cd_id b)); try discriminate; split; auto; discriminate. }
  destruct H' as [H1 H2]. specialize (IH (S k) H1). constructor; auto.
  destruct l as [|b l]; [constructor|]. cbn [length seq map combine] in *.
  inversion IH as [|? ? I1 I2]; subst. constructor; [exact H2|].
  eapply Forall_impl; [|exact I2]. intros x Hx. unfold id_le in *. cbn [snd] in *.
  eapply lexle_trans; eauto.
Qed.

Section Main.
Variable qsort : list scand -> list scand.
Variable bufsiz : nat.
Variable prefix : bytes.
Variable id_size : N.
Hypothesis Hq : sorts qsort.
Hypothesis Hid : 24 <= id_size.
Hypothesis Hp : no_hex_prefix prefix id_size.

Lemma filter_walk (s_flag : bool) hdr_id ok cs l :
  (forall e, In e l -> length (e_key e) = 24%nat) ->
  (forall e c, In e l -> In c cs -> key_matches (e_key e) (cd_id c) = true ->
     s_check s_flag hdr_id e (cd_id c) = Ok (ok e (cd_id c))) ->
  (forall e1 e2 c, In e1 l -> In e2 l -> e_key e1 = e_key e2 -> In c cs -> key_matches (e_key e1) (cd_id c) = true ->
     ok e1 (cd_id c) = ok e2 (cd_id c)) ->
  let sorted := if needs_sort cs then qsort (numbered cs) else numbered cs in
  exists s', snd (run_cb (filter_iter s_flag hdr_id) l (Ok (mkF [] sorted [] []))) = Ok s' /\
    forall i c, nth_error cs i = Some c -> (In i (f_found s') <-> hit ok l (cd_id c)).
Proof.
  intros H24 Hc Ha sorted.
  assert (HS : StronglySorted id_le sorted /\ Permutation sorted (numbered cs)).
  { unfold sorted. destruct (needs_sort cs) eqn:E.
    - destruct (Hq (numbered cs)) as [P S]. auto.
    - split; auto. apply sorted_already; auto. }
  destruct HS as [HS HP].
  assert (Hin : forall n id, In (n, id) sorted <-> exists c, nth_error cs n = Some c /\ cd_id c = id).
  { intros n id. rewrite <- in_numbered. split; apply Permutation_in; auto. apply Permutation_sym; auto. }
  destruct (walk_ok (s_check s_flag hdr_id) ok sorted l) with (l := l) (P := @nil ixent) (s := mkF [] sorted [] []) as (s' & E1 & E2).
  - apply (Permutation_NoDup (l := map fst (numbered cs))).
    + apply Permutation_map. apply Permutation_sym; auto.
    + rewrite fst_numbered. apply seq_NoDup.
  - auto.
  - intros e n id He Hn Hm. apply Hin in Hn. destruct Hn as (c & Hn & <-). apply Hc; auto. eapply nth_error_In; eauto.
  - intros e1 e2 n id He1 He2 Ek Hn Hm. apply Hin in Hn. destruct Hn as (c & Hn & <-). apply Ha; auto. eapply nth_error_In; eauto.
  - apply incl_refl.
  - constructor; cbn [f_before f_rest f_found f_last app]; auto.
    + intros n id _. split; [intros []|]. intros (e & [] & _).
    + intros n id. tauto.
    + intros n id [].
  - exists s'. split; [exact E1|]. intros i c Hi. rewrite <- (E2 i (cd_id c)); [tauto|]. apply Hin. eauto.
Qed.

Lemma askedb_key e id : length (e_key e) = 24%nat -> small id -> (24 <= length id)%nat ->
  (key_matches (e_key e) id = true <-> asked (Some id) e).
Proof.
  intros L S Hl. unfold key_matches, asked, bytes_eqb. rewrite lexb_eq_true, L, S. split.
  - intros <-. exists []. rewrite app_nil_r. auto.
  - intros (r & E). assert (r = []).
    { apply (f_equal (@length N)) in E. rewrite app_length, firstn_length, L in E. destruct r; auto. exfalso; cbn [length] in E; lia. }
    subst r. rewrite app_nil_r in E. auto.
Qed.

Lemma filter_main (s_flag r_flag v_flag : bool) hdr_id ok st l gss :
  Forall (Forall (good_given bufsiz prefix id_size)) gss ->
  Forall (Forall small_given) gss ->
  lookup st None = Ok l -> (forall e, In e l -> length (e_key e) = 24%nat) ->
  (forall e p id t, In e l -> In (Given p id t) (concat gss) -> asked (Some id) e ->
     s_check s_flag hdr_id e id = Ok (ok e id)) ->
  (forall e1 e2 p id t, In e1 l -> In e2 l -> e_key e1 = e_key e2 -> In (Given p id t) (concat gss) -> asked (Some id) e1 ->
     ok e1 id = ok e2 id) ->
  exists there, 
    main_filter qsort bufsiz prefix id_size r_flag s_flag v_flag hdr_id (map (flat_map text) gss) st =
      Ok (Some (flat_map (answer r_flag v_flag there) (concat gss))) /\
    forall p id t, In (Given p id t) (concat gss) ->
      (there id = true <-> exists e, In e l /\ asked (Some id) e /\ ok e id = true).
Proof.
  intros Hg Hs El H24 Hc Ha. unfold main_filter, filter_rest. rewrite read_files_good by (auto; lia). cbn [bind].
  set (cs := flat_map g_cand (concat gss)).
  assert (Hcs : forall c, In c cs -> exists p id t, In (Given p id t) (concat gss) /\ c = mkCand id (p ++ id ++ t) /\ small id /\ (24 <= length id)%nat).
  { intros c H. apply in_flat_map in H. destruct H as (g & H1 & H2). destruct g as [|p id t]; [contradiction|].
    destruct H2 as [<-|[]]. exists p, id, t. split; auto. split; auto.
    apply in_concat in H1. destruct H1 as (gs & H1 & H3). rewrite Forall_forall in Hg, Hs. specialize (Hg gs H1). specialize (Hs gs H1).
    rewrite Forall_forall in Hg, Hs. destruct (Hg _ H3) as (_ & _ & _ & _ & Hl). split; [exact (Hs _ H3)|].
    unfold len in Hl. lia. }
  destruct (filter_walk s_flag hdr_id ok cs l) as (s' & E1 & E2).
  - auto.
  - intros e c He Hin Hm. destruct (Hcs c Hin) as (p & id & t & Hg' & -> & Hsm & Hl). cbn [cd_id] in *.
    apply (Hc e p id t); auto. apply askedb_key; auto.
  - intros e1 e2 c He1 He2 Ek Hin Hm. destruct (Hcs c Hin) as (p & id & t & Hg' & -> & Hsm & Hl). cbn [cd_id] in *.
    apply (Ha e1 e2 p id t); auto. apply askedb_key; auto.
  - destruct (iter_any (filter_iter s_flag hdr_id) st None l
       (Ok (mkF [] (if needs_sort cs then qsort (numbered cs) else numbered cs) [] [])) El) as (i & ->).
    cbn [bind]. rewrite E1. cbn [bind].
    set (there := fun id => existsb (fun e => key_matches (e_key e) id && ok e id) l).
    assert (Ht : forall id, there id = true <-> hit ok l id).
    { intros id. unfold there, hit. rewrite existsb_exists. split; intros (e & H1 & H2); exists e; split; auto; apply andb_true_iff; auto. }
    exists there. split.
    + do 2 f_equal. apply report_ok. intros j c Hj. cbn [Nat.add].
      assert (existsb (Nat.eqb j) (f_found s') = true <-> there (cd_id c) = true).
      { rewrite Ht, <- (E2 j c Hj), existsb_exists. split.
        - intros (x & Hx & Ex). apply Nat.eqb_eq in Ex. subst; auto.
        - intros H. exists j. split; auto. apply Nat.eqb_refl. }
      destruct (existsb (Nat.eqb j) (f_found s')), (there (cd_id c)); auto; destruct H as [X Y]; [symmetry; auto|auto].
    + intros p id t Hin. assert (Hin' : In (mkCand id (p ++ id ++ t)) cs) by (apply in_flat_map; exists (Given p id t); simpl; auto).
      destruct (Hcs _ Hin') as (p' & id' & t' & _ & E & Hsm & Hl). injection E as <- E.
      rewrite Ht. unfold hit. split; intros (e & He & H1 & H2); exists e; repeat split; auto;
        apply askedb_key; auto.
Qed.
End Main.
