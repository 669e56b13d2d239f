(* How reindex puts segments together, in whatever order they come. *)
From Coq Require Import String Sorting.Sorted Permutation.
From Coq Require Import ZifyBool ZifyNat ZifyN.
From Verif Require Import Base BaseLemmas ListLemmas IndexModel IndexSpec HeaderModel GzipModel ProgModel StoreModel ReindexModel.
Open Scope string_scope.
Open Scope list_scope.
Open Scope N_scope.

Lemma ss_app {A} (R : A -> A -> Prop) x y : StronglySorted R (x ++ y) <->
  StronglySorted R x /\ StronglySorted R y /\ (forall u v, In u x -> In v y -> R u v).
Proof.
  induction x as [|a x IH]; cbn [app].
  - split; [intros H; split; [constructor|split; [auto|intros u v []]]|tauto].
  - split.
    + intros H. inversion H as [|? ? S F]; subst. apply IH in S. destruct S as (S1 & S2 & S3). rewrite Forall_forall in F.
      split; [constructor; auto; apply Forall_forall; intros z Hz; apply F; apply in_or_app; auto|].
      split; [auto|]. intros u v [->|Hu] Hv; [apply F; apply in_or_app; auto|auto].
    + intros (S1 & S2 & S3). inversion S1 as [|? ? S F]; subst. constructor.
      * apply IH. split; [auto|]. split; [auto|]. intros u v Hu Hv. apply S3; [right|]; auto.
      * apply Forall_app. split; auto. apply Forall_forall. intros v Hv. apply S3; [left|]; auto.
Qed.

Section Match.
Variable C : conf.
Notation find_place := (find_place C).
Notation try_seg := (try_seg C).
Notation place_seg := (place_seg C).

Definition par (s : seg) : bytes := firstn (N.to_nat (c_idsize C)) (s_parent s).
Definition before (x y : seg) : Prop := lex (par x) (par y) = Lt \/ par x = par y /\ s_no y < s_no x.

Lemma before_trans x y z : before x y -> before y z -> before x z.
Proof.
  intros [A|(A & A')] [B|(B & B')].
  - left. eapply lex_trans_lt; eauto.
  - left. rewrite <- B. auto.
  - left. rewrite A. auto.
  - right. split; [congruence|lia].
Qed.
Lemma before_irrefl x y : par x = par y -> s_no x = s_no y -> ~ before x y.
Proof. intros E F [A|(_ & A)]; [rewrite E, lex_refl in A; discriminate|lia]. Qed.
Lemma before_asym x y : before x y -> before y x -> False.
Proof. intros A B. apply (before_irrefl x x); auto. eapply before_trans; eauto. Qed.
Lemma before_key x x' y y' : par x = par x' -> s_no x = s_no x' -> par y = par y' -> s_no y = s_no y' -> before x y -> before x' y'.
Proof. unfold before. intros -> -> -> ->. auto. Qed.

(* nothing is between neighbours *)
Lemma before_gap x y z : par x = par z -> s_no x = s_no z + 1 -> before x y -> before y z -> False.
Proof.
  intros E F [A|(A & A')] [B|(B & B')].
  - pose proof (lex_trans_lt _ _ _ A B) as T. rewrite E, lex_refl in T. discriminate.
  - rewrite B, E, lex_refl in A. discriminate.
  - rewrite <- A, E, lex_refl in B. discriminate.
  - lia.
Qed.

Lemma find_place_ok s l : StronglySorted before l -> (forall x, In x l -> par x = par s -> s_no x <> s_no s) ->
  forall front, exists l1 l2, find_place s front l = (rev l1 ++ front, l2) /\ l = l1 ++ l2 /\
    Forall (fun x => before x s) l1 /\ Forall (before s) l2.
Proof.
  induction l as [|x r IH]; intros S NK front; cbn [ReindexModel.find_place].
  - exists [], []. auto.
  - inversion S as [|? ? S1 F]; subst.
    assert (GO : before x s -> exists l1 l2, find_place s (x :: front) r = (rev l1 ++ front, l2) /\ x :: r = l1 ++ l2 /\
       Forall (fun x => before x s) l1 /\ Forall (before s) l2).
    { intros B. destruct (IH S1 (fun y Hy => NK y (or_intror Hy)) (x :: front)) as (l1 & l2 & E1 & E2 & E3 & E4).
      exists (x :: l1), l2. rewrite E1. cbn [rev app]. rewrite <- app_assoc. cbn [app]. split; [auto|]. split; [f_equal; auto|]. split; [constructor; auto|auto]. }
    assert (STOP : before s x -> exists l1 l2, (front, x :: r) = (rev l1 ++ front, l2) /\ x :: r = l1 ++ l2 /\
       Forall (fun x => before x s) l1 /\ Forall (before s) l2).
    { intros B. exists [], (x :: r). split; [auto|]. split; [auto|]. split; [auto|]. constructor; [auto|].
      eapply Forall_impl; [|exact F]. intros y Hy. eapply before_trans; eauto. }
    unfold pcmp. fold (par x). fold (par s). destruct (lex (par x) (par s)) eqn:X.
    + apply lex_eq in X. destruct (s_no x <? s_no s) eqn:Y.
      * apply STOP. right. split; [auto|lia].
      * apply GO. right. split; [auto|]. specialize (NK x (or_introl eq_refl) X). lia.
    + apply GO. left. auto.
    + apply STOP. left. rewrite lex_antisym, X. reflexivity.
Qed.

(** * The segments seen so far, and what is kept of them *)

Definition isnext (x c : seg) : bool := bytes_eqb (par c) (par x) && (s_no c =? s_no x + 1).
Definition nxt (P : list seg) (x : seg) : bool := existsb (isnext x) P.
Definition prv (P : list seg) (x : seg) : bool := existsb (fun b => isnext b x) P.
Definition img (P : list seg) (x : seg) : seg :=
  mkSeg (s_id x) (s_flg x) (s_parent x) (s_silo x) (s_off x) (s_no x) (s_used x || prv P x) (s_done x || nxt P x).
Definition live (P : list seg) (x : seg) : bool := negb (s_used (img P x) && s_done (img P x)).
Definition keep (P : list seg) (x : seg) : list seg := if live P x then [img P x] else [].

Lemma isnext_iff x c : isnext x c = true <-> par c = par x /\ s_no c = s_no x + 1.
Proof. unfold isnext. rewrite andb_true_iff, bytes_eqb_true, N.eqb_eq. tauto. Qed.

Definition okset (Q : list seg) : Prop := NoDup Q /\
  (forall x y, In x Q -> In y Q -> par x = par y -> s_no x = s_no y -> x = y) /\
  (forall x, In x Q -> s_used x = (s_no x =? 1) /\ 1 <= s_no x < 2 ^ 63 - 1 /\ s_used x && s_done x = false) /\
  (forall x y, In x Q -> In y Q -> isnext x y = true -> s_done x = false).

Definition kept (P l : list seg) : Prop := StronglySorted before l /\
  forall x, In x l <-> exists a, In a P /\ x = img P a /\ live P a = true.

Definition olist {A B} (f : A -> list B) (o : option A) : list B := match o with Some a => f a | None => [] end.

Lemma try_none p m :
  match m with [] => True | y :: _ => s_done y = true \/ s_no y < 2 ^ 63 - 1 /\ isnext y p = false end ->
  try_seg (p :: m) = Ok ([], p :: m).
Proof.
  destruct m as [|y m]; cbn [ReindexModel.try_seg]; auto. intros [->|(H & E)]; auto. destruct (s_done y); auto.
  replace (s_no y =? 2 ^ 63 - 1) with false by lia.
  destruct (s_no y + 1 =? s_no p) eqn:X; cbn [andb]; auto. unfold pcmp. fold (par y). fold (par p).
  destruct (lex (par y) (par p)) eqn:Y; auto. apply lex_eq in Y. exfalso.
  assert (T : isnext y p = true) by (apply isnext_iff; split; [auto|lia]). congruence.
Qed.

Lemma try_emit a b r : s_done b = false -> s_no b < 2 ^ 63 - 1 -> s_used a = false -> isnext b a = true ->
  try_seg (a :: b :: r) = Ok ([put_seg b (Some (s_id a))],
    ((if s_done a then [] else [mkSeg (s_id a) (s_flg a) (s_parent a) (s_silo a) (s_off a) (s_no a) true (s_done a)]) ++
     (if s_used b then [] else [mkSeg (s_id b) (s_flg b) (s_parent b) (s_silo b) (s_off b) (s_no b) (s_used b) true])) ++ r).
Proof.
  intros D N U E. cbn [ReindexModel.try_seg]. rewrite D. replace (s_no b =? 2 ^ 63 - 1) with false by lia.
  apply isnext_iff in E. destruct E as (E1 & E2). replace (s_no b + 1 =? s_no a) with true by lia. unfold pcmp. fold (par b). fold (par a).
  rewrite E1, lex_refl. cbn [andb]. unfold emit_seg. rewrite D, U. reflexivity.
Qed.

Lemma find_some_in {A} f (l : list A) x : find f l = Some x -> In x l /\ f x = true.
Proof. apply find_some. Qed.

Section Step.
Variables (P l : list seg) (a : seg).
Hypothesis OK : okset (a :: P).
Hypothesis K : kept P l.

Lemma U : forall x y, In x (a :: P) -> In y (a :: P) -> par x = par y -> s_no x = s_no y -> x = y.
Proof. exact (proj1 (proj2 OK)). Qed.

Lemma a_notin : ~ In a P.
Proof. destruct OK as (H & _). inversion H; auto. Qed.

Lemma nxt_cons x : nxt (a :: P) x = isnext x a || nxt P x.
Proof. reflexivity. Qed.
Lemma prv_cons x : prv (a :: P) x = isnext a x || prv P x.
Proof. reflexivity. Qed.

Lemma nxt_false x : In x P -> isnext x a = true -> nxt P x = false.
Proof.
  intros H E. destruct (nxt P x) eqn:X; auto. exfalso. apply existsb_exists in X. destruct X as (y & Y1 & Y2).
  apply isnext_iff in E, Y2. apply a_notin. replace a with y; auto. apply U; [right; auto|left; auto|..]; [destruct E, Y2; congruence|lia].
Qed.
Lemma prv_false x : In x P -> isnext a x = true -> prv P x = false.
Proof.
  intros H E. destruct (prv P x) eqn:X; auto. exfalso. apply existsb_exists in X. destruct X as (y & Y1 & Y2).
  apply isnext_iff in E, Y2. apply a_notin. replace a with y; auto. apply U; [right; auto|left; auto|..]; [destruct E, Y2; congruence|lia].
Qed.

Lemma img_same x : isnext x a = false -> isnext a x = false -> img (a :: P) x = img P x.
Proof. intros E F. unfold img. rewrite nxt_cons, prv_cons, E, F. reflexivity. Qed.

Notation pb := (find (fun b => isnext b a) P).
Notation pc := (find (isnext a) P).

Lemma pb_only b x : pb = Some b -> In x P -> isnext x a = true -> x = b.
Proof.
  intros E H X. apply find_some_in in E. destruct E as (E1 & E2). apply isnext_iff in E2, X. apply U; [right; auto|right; auto|..]; [destruct E2, X; congruence|lia].
Qed.
Lemma pc_only c x : pc = Some c -> In x P -> isnext a x = true -> x = c.
Proof.
  intros E H X. apply find_some_in in E. destruct E as (E1 & E2). apply isnext_iff in E2, X. apply U; [right; auto|right; auto|..]; [destruct E2, X; congruence|lia].
Qed.

(* what is in the list *)
Lemma in_l x : In x l -> exists y, In y P /\ x = img P y /\ live P y = true /\ par x = par y /\ s_no x = s_no y /\ s_no x < 2 ^ 63 - 1.
Proof.
  intros H. apply K in H. destruct H as (y & H1 & -> & H2). exists y. split; [auto|]. split; [auto|]. split; [auto|]. split; [auto|]. split; [auto|].
  cbn [img s_no]. apply (proj1 (proj2 (proj2 OK)) y). right. auto.
Qed.

Lemma img_inj x y : In x P -> In y P -> img P x = img P y -> x = y.
Proof.
  intros H1 H2 E. apply U; [right; auto|right; auto|..].
  - unfold par. f_equal. exact (f_equal s_parent E).
  - exact (f_equal s_no E).
Qed.

Lemma b_state b : pb = Some b -> In b P /\ s_done (img P b) = false /\ s_used a = false /\ In (img P b) l /\ before a (img P b).
Proof.
  intros E. apply find_some_in in E. destruct E as (E1 & E2). split; [auto|].
  assert (D : s_done (img P b) = false).
  { cbn [img s_done]. rewrite nxt_false by auto. rewrite orb_false_r. apply (proj2 (proj2 (proj2 OK)) b a); [right; auto|left; auto|auto]. }
  split; [auto|]. pose proof E2 as E3. apply isnext_iff in E3. destruct E3 as (E3 & E4). split; [|split].
  - destruct (proj1 (proj2 (proj2 OK)) a (or_introl eq_refl)) as (-> & _). destruct (proj1 (proj2 (proj2 OK)) b (or_intror E1)) as (_ & B & _). lia.
  - apply K. exists b. split; [auto|]. split; [auto|]. unfold live. rewrite D, andb_false_r. reflexivity.
  - right. split; [auto|]. cbn [img s_no]. lia.
Qed.

Lemma c_state c : pc = Some c -> In c P /\ s_used (img P c) = false /\ s_done a = false /\ In (img P c) l /\ before (img P c) a.
Proof.
  intros E. apply find_some_in in E. destruct E as (E1 & E2). split; [auto|].
  assert (E3 := E2). apply isnext_iff in E3. destruct E3 as (E3 & E4).
  destruct (proj1 (proj2 (proj2 OK)) a (or_introl eq_refl)) as (_ & B & _).
  destruct (proj1 (proj2 (proj2 OK)) c (or_intror E1)) as (UC & _ & _).
  assert (D : s_used (img P c) = false).
  { cbn [img s_used]. rewrite prv_false by auto. rewrite UC. lia. }
  split; [auto|]. split; [|split].
  - apply (proj2 (proj2 (proj2 OK)) a c); [left; auto|right; auto|auto].
  - apply K. exists c. split; [auto|]. split; [auto|]. unfold live. rewrite D. reflexivity.
  - right. split; [auto|]. cbn [img s_no]. lia.
Qed.

Lemma fresh_key x : In x l -> par x = par a -> s_no x <> s_no a.
Proof.
  intros H E F. destruct (in_l x H) as (y & H1 & _ & _ & H2 & H3 & _). apply a_notin. replace a with y; auto.
  apply U; [right; auto|left; auto|congruence|congruence].
Qed.

(* neighbours in the list are already linked *)
Lemma linked x y : In x l -> In y l -> isnext y x = true -> s_done y = true.
Proof.
  intros Hx Hy E. destruct (in_l x Hx) as (x0 & X1 & X2 & _ & X4 & X5 & _). destruct (in_l y Hy) as (y0 & Y1 & Y2 & _ & Y4 & Y5 & _).
  rewrite Y2. cbn [img s_done]. apply orb_true_iff. right. apply existsb_exists. exists x0. split; [auto|].
  apply isnext_iff in E. apply isnext_iff. rewrite <- X4, <- X5, <- Y4, <- Y5. auto.
Qed.

Lemma split_list : exists l1 l2, find_place a [] l = (rev (l1 ++ olist (fun c => [img P c]) pc), olist (fun b => [img P b]) pb ++ l2) /\
  l = (l1 ++ olist (fun c => [img P c]) pc) ++ (olist (fun b => [img P b]) pb ++ l2) /\
  Forall (fun x => before x a) (l1 ++ olist (fun c => [img P c]) pc) /\ Forall (before a) (olist (fun b => [img P b]) pb ++ l2).
Proof.
  destruct K as (S & _). destruct (find_place_ok a l S fresh_key []) as (m1 & m2 & E1 & E2 & F1 & F2). rewrite app_nil_r in E1.
  rewrite E2 in S. apply ss_app in S. destruct S as (S1 & S2 & _). rewrite Forall_forall in F1, F2.
  assert (X2 : exists l2, m2 = olist (fun b => [img P b]) pb ++ l2).
  { destruct pb as [b|] eqn:EB; [|exists m2; auto]. destruct (b_state b EB) as (B1 & B2 & B3 & B4 & B5). cbn [olist app].
    rewrite E2 in B4. apply in_app_iff in B4. destruct B4 as [B4|B4]; [exfalso; eapply before_asym; [apply F1; exact B4|exact B5]|].
    destruct m2 as [|h t]; [destruct B4|]. exists t. destruct B4 as [->|B4]; [auto|]. exfalso. inversion S2 as [|? ? _ F]; subst. rewrite Forall_forall in F.
    apply find_some_in in EB. destruct EB as (_ & EB). apply isnext_iff in EB. destruct EB as (P1 & P2).
    apply (before_gap a h (img P b)); auto; apply F2; left; auto. }
  assert (X1 : exists l1, m1 = l1 ++ olist (fun c => [img P c]) pc).
  { destruct pc as [c|] eqn:EC; [|exists m1; rewrite app_nil_r; auto]. destruct (c_state c EC) as (B1 & B2 & B3 & B4 & B5). cbn [olist].
    rewrite E2 in B4. apply in_app_iff in B4. destruct B4 as [B4|B4]; [|exfalso; eapply before_asym; [apply F2; exact B4|exact B5]].
    apply in_split in B4. destruct B4 as (t & t2 & B4). destruct t2 as [|h t2]; [exists t; auto|]. exfalso. rewrite B4 in S1.
    apply ss_app in S1. destruct S1 as (_ & S1 & _). inversion S1 as [|? ? _ F]; subst. rewrite Forall_forall in F.
    apply find_some_in in EC. destruct EC as (_ & EC). apply isnext_iff in EC. destruct EC as (P1 & P2).
    apply (before_gap (img P c) h a); auto.
    - apply F. left. auto.
    - apply F1. apply in_or_app. right. right. left. auto. }
  destruct X2 as (l2 & ->), X1 as (l1 & ->). exists l1, l2. split; [auto|]. split; [auto|]. split; apply Forall_forall; auto.
Qed.

Definition step_ops : list iop := olist (fun b => [put_seg b (Some (s_id a))]) pb ++ olist (fun c => [put_seg a (Some (s_id c))]) pc.
Definition step_list (l1 l2 : list seg) : list seg :=
  l1 ++ olist (keep (a :: P)) pc ++ keep (a :: P) a ++ olist (keep (a :: P)) pb ++ l2.

Lemma isnext_self x : isnext x x = false.
Proof. destruct (isnext x x) eqn:E; auto. apply isnext_iff in E. lia. Qed.

Lemma nxt_find : nxt P a = match pc with Some _ => true | None => false end.
Proof.
  unfold nxt. destruct pc as [c|] eqn:E.
  - apply find_some_in in E. apply existsb_exists. exists c. auto.
  - destruct (existsb (isnext a) P) eqn:X; auto. apply existsb_exists in X. destruct X as (y & Y1 & Y2). pose proof (find_none _ _ E y Y1). congruence.
Qed.
Lemma prv_find : prv P a = match pb with Some _ => true | None => false end.
Proof.
  unfold prv. destruct pb as [c|] eqn:E.
  - apply find_some_in in E. apply existsb_exists. exists c. auto.
  - destruct (existsb (fun b => isnext b a) P) eqn:X; auto. apply existsb_exists in X. destruct X as (y & Y1 & Y2). pose proof (find_none _ _ E y Y1). cbn beta in *. congruence.
Qed.

Lemma img_a : img (a :: P) a = mkSeg (s_id a) (s_flg a) (s_parent a) (s_silo a) (s_off a) (s_no a)
  (s_used a || match pb with Some _ => true | None => false end) (s_done a || match pc with Some _ => true | None => false end).
Proof. unfold img. rewrite nxt_cons, prv_cons, isnext_self, <- nxt_find, <- prv_find. reflexivity. Qed.

Lemma eta_seg s : mkSeg (s_id s) (s_flg s) (s_parent s) (s_silo s) (s_off s) (s_no s) (s_used s) (s_done s) = s.
Proof. destruct s. reflexivity. Qed.

Lemma keep_b b : pb = Some b -> keep (a :: P) b = if s_used (img P b) then [] else
  [mkSeg (s_id b) (s_flg b) (s_parent b) (s_silo b) (s_off b) (s_no b) (s_used (img P b)) true].
Proof.
  intros E. destruct (b_state b E) as (B1 & B2 & B3 & B4 & B5). apply find_some_in in E. destruct E as (_ & E).
  assert (I : img (a :: P) b = mkSeg (s_id b) (s_flg b) (s_parent b) (s_silo b) (s_off b) (s_no b) (s_used (img P b)) true).
  { unfold img at 1. rewrite nxt_cons, prv_cons, E. rewrite orb_true_l, orb_true_r. f_equal. cbn [img s_used].
    replace (isnext a b) with false; auto. symmetry. destruct (isnext a b) eqn:X; auto. apply isnext_iff in E, X. lia. }
  unfold keep, live. rewrite I. cbn [s_used s_done]. rewrite andb_true_r. destruct (s_used (img P b)); reflexivity.
Qed.

Lemma keep_c c : pc = Some c -> keep (a :: P) c = if s_done (img P c) then [] else
  [mkSeg (s_id c) (s_flg c) (s_parent c) (s_silo c) (s_off c) (s_no c) true (s_done (img P c))].
Proof.
  intros E. destruct (c_state c E) as (B1 & B2 & B3 & B4 & B5). apply find_some_in in E. destruct E as (_ & E).
  assert (I : img (a :: P) c = mkSeg (s_id c) (s_flg c) (s_parent c) (s_silo c) (s_off c) (s_no c) true (s_done (img P c))).
  { unfold img at 1. rewrite nxt_cons, prv_cons, E. rewrite orb_true_l, orb_true_r. f_equal. cbn [img s_done].
    replace (isnext c a) with false; auto. symmetry. destruct (isnext c a) eqn:X; auto. apply isnext_iff in E, X. lia. }
  unfold keep, live. rewrite I. cbn [s_used s_done]. rewrite andb_true_l. destruct (s_done (img P c)); reflexivity.
Qed.

Lemma a_not_both : s_used a && s_done a = false.
Proof. apply (proj1 (proj2 (proj2 OK)) a). left. auto. Qed.

Lemma place_ok : exists l1 l2, place_seg a l = Ok (step_ops, step_list l1 l2) /\
  l = (l1 ++ olist (fun c => [img P c]) pc) ++ (olist (fun b => [img P b]) pb ++ l2) /\
  Forall (fun x => before x a) (l1 ++ olist (fun c => [img P c]) pc) /\ Forall (before a) (olist (fun b => [img P b]) pb ++ l2).
Proof.
  destruct split_list as (l1 & l2 & E1 & E2 & F1 & F2). exists l1, l2. split; [|auto].
  unfold ReindexModel.place_seg. rewrite E1. unfold step_ops, step_list.
  (* the segment itself *)
  assert (T1 : try_seg (a :: olist (fun b => [img P b]) pb ++ l2) =
    Ok (olist (fun b => [put_seg b (Some (s_id a))]) pb,
        match pb with
        | None => a :: l2
        | Some b => (if s_done a then [] else [mkSeg (s_id a) (s_flg a) (s_parent a) (s_silo a) (s_off a) (s_no a) true (s_done a)]) ++
                    keep (a :: P) b ++ l2
        end)).
  { destruct pb as [b|] eqn:EB; cbn [olist app].
    - destruct (b_state b EB) as (B1 & B2 & B3 & B4 & B5). rewrite try_emit; auto.
      + rewrite (keep_b b EB). rewrite <- app_assoc. reflexivity.
      + destruct (in_l _ B4) as (y0 & _ & _ & _ & _ & _ & Y). exact Y.
      + apply find_some_in in EB. apply EB.
    - apply try_none. destruct l2 as [|y l2]; auto. right. cbn [olist app] in E2.
      destruct (in_l y) as (y0 & Y1 & Y2 & _ & Y4 & Y5 & Y6); [rewrite E2; apply in_or_app; right; left; auto|]. split; [auto|].
      destruct (isnext y a) eqn:X; auto. exfalso. pose proof (find_none _ _ EB y0 Y1) as Z. cbn beta in Z.
      apply isnext_iff in X. assert (isnext y0 a = true) by (apply isnext_iff; rewrite <- Y4, <- Y5; auto). congruence. }
  rewrite T1. cbn [bind]. clear T1. rewrite rev_app_distr.
  pose proof img_a as IA. pose proof a_not_both as NB.
  destruct pc as [c|] eqn:EC; cbn [olist app rev].
  - destruct (c_state c EC) as (B1 & B2 & B3 & B4 & B5). rewrite B3 in *.
    assert (NC : isnext a c = true) by (apply find_some_in in EC; apply EC).
    assert (LC : s_no a < 2 ^ 63 - 1) by (apply (proj1 (proj2 (proj2 OK)) a); left; auto).
    assert (LK : keep (a :: P) a = if s_used a || match pb with Some _ => true | None => false end then [] else
        [mkSeg (s_id a) (s_flg a) (s_parent a) (s_silo a) (s_off a) (s_no a) (s_used a) true]).
    { unfold keep, live. rewrite IA. cbn [s_used s_done]. rewrite orb_true_r, andb_true_r. destruct pb; cbn [orb].
      - rewrite orb_true_r. reflexivity.
      - rewrite orb_false_r. destruct (s_used a); reflexivity. }
    destruct pb as [b|] eqn:EB.
    + cbn [app]. rewrite try_emit; auto. cbn [bind s_id s_used olist].
      rewrite LK, orb_true_r. rewrite (keep_c c EC). rewrite rev_involutive. cbn [app]. rewrite app_nil_r. cbn [img s_id s_flg s_parent s_silo s_off s_no].
      repeat rewrite <- app_assoc. reflexivity.
    + rewrite try_emit; auto. cbn [bind s_id s_used olist app].
      rewrite LK, orb_false_r. rewrite (keep_c c EC). rewrite rev_involutive. cbn [img s_id s_flg s_parent s_silo s_off s_no].
      repeat rewrite <- app_assoc. reflexivity.
  - assert (LK : keep (a :: P) a = match pb with Some _ => if s_done a then [] else [mkSeg (s_id a) (s_flg a) (s_parent a) (s_silo a) (s_off a) (s_no a) true (s_done a)]
                                   | None => [a] end).
    { unfold keep, live. rewrite IA. cbn [s_used s_done]. rewrite orb_false_r. destruct pb.
      - rewrite orb_true_r. cbn [andb]. destruct (s_done a); reflexivity.
      - rewrite orb_false_r, NB. rewrite eta_seg. reflexivity. }
    rewrite LK. rewrite app_nil_r in *.
    assert (EQ : (match pb with
        | None => a :: l2
        | Some b => (if s_done a then [] else [mkSeg (s_id a) (s_flg a) (s_parent a) (s_silo a) (s_off a) (s_no a) true (s_done a)]) ++
                    keep (a :: P) b ++ l2
        end) = (match pb with Some _ => if s_done a then [] else [mkSeg (s_id a) (s_flg a) (s_parent a) (s_silo a) (s_off a) (s_no a) true (s_done a)]
                                   | None => [a] end) ++ olist (keep (a :: P)) pb ++ l2) by (destruct pb; reflexivity).
    rewrite EQ. clear EQ.
    destruct (rev l1) as [|p front] eqn:ER.
    { assert (l1 = []) by (rewrite <- (rev_involutive l1), ER; reflexivity). subst l1. reflexivity. }
    assert (EL : l1 = rev front ++ [p]) by (rewrite <- (rev_involutive l1), ER; reflexivity).
    assert (HP : In p l) by (rewrite E2, EL; apply in_or_app; left; apply in_or_app; right; left; auto).
    rewrite try_none.
    + cbn [bind]. rewrite app_nil_r, EL, <- app_assoc. reflexivity.
    + assert (NA : forall u d, s_no (mkSeg (s_id a) (s_flg a) (s_parent a) (s_silo a) (s_off a) (s_no a) u d) < 2 ^ 63 - 1 /\
                    isnext (mkSeg (s_id a) (s_flg a) (s_parent a) (s_silo a) (s_off a) (s_no a) u d) p = false).
      { intros u d. split; [cbn [s_no]; apply (proj1 (proj2 (proj2 OK)) a); left; auto|].
        destruct (isnext _ p) eqn:X; auto. exfalso. apply isnext_iff in X. destruct (in_l p HP) as (p0 & P1 & P2 & _ & P4 & P5 & _).
        pose proof (find_none _ _ EC p0 P1) as Z. assert (isnext a p0 = true) by (apply isnext_iff; rewrite <- P4, <- P5; exact X). congruence. }
      assert (N2 : match l2 with [] => True | y :: _ => s_done y = true \/ s_no y < 2 ^ 63 - 1 /\ isnext y p = false end).
      { destruct l2 as [|y l2]; auto. assert (HY : In y l) by (rewrite E2; apply in_or_app; right; apply in_or_app; right; left; auto).
        destruct (isnext y p) eqn:X; [left; apply (linked p y); auto|right; split; auto; destruct (in_l y HY) as (y0 & _ & _ & _ & _ & _ & Y); exact Y]. }
      destruct pb as [b|] eqn:EB; cbn [app].
      * destruct (s_done a); cbn [app]; [|right; apply NA]. cbn [olist]. rewrite (keep_b b EB).
        destruct (s_used (img P b)); cbn [app]; [exact N2|left; reflexivity].
      * right. rewrite <- (eta_seg a) at 1 2. apply NA.
Qed.

Lemma keep_in Q x y : In x (keep Q y) <-> x = img Q y /\ live Q y = true.
Proof. unfold keep. destruct (live Q y); cbn [In]; intuition congruence. Qed.

Lemma ss_keep Q y : StronglySorted before (keep Q y).
Proof. unfold keep. destruct (live Q y); repeat constructor. Qed.

Lemma step_kept l1 l2 : l = (l1 ++ olist (fun c => [img P c]) pc) ++ (olist (fun b => [img P b]) pb ++ l2) ->
  Forall (fun x => before x a) (l1 ++ olist (fun c => [img P c]) pc) -> Forall (before a) (olist (fun b => [img P b]) pb ++ l2) ->
  kept (a :: P) (step_list l1 l2).
Proof.
  intros E F1 F2. destruct K as (S & M). rewrite E in S. rewrite Forall_forall in F1, F2.
  apply ss_app in S. destruct S as (S1 & S2 & S3). apply ss_app in S1. destruct S1 as (S11 & _ & S13). apply ss_app in S2. destruct S2 as (_ & S22 & S23).
  (* keys of the middle part *)
  assert (KB : forall x, In x (olist (keep (a :: P)) pb) -> exists b, pb = Some b /\ x = img (a :: P) b /\ live (a :: P) b = true).
  { intros x. destruct pb as [b|]; [|intros []]. cbn [olist]. rewrite keep_in. intros (-> & H). exists b. auto. }
  assert (KC : forall x, In x (olist (keep (a :: P)) pc) -> exists c, pc = Some c /\ x = img (a :: P) c /\ live (a :: P) c = true).
  { intros x. destruct pc as [b|]; [|intros []]. cbn [olist]. rewrite keep_in. intros (-> & H). exists b. auto. }
  assert (BK : forall b, pb = Some b -> In (img P b) (olist (fun b => [img P b]) pb)) by (intros b ->; left; auto).
  assert (CK : forall c, pc = Some c -> In (img P c) (olist (fun c => [img P c]) pc)) by (intros c ->; left; auto).
  assert (Ai : forall x, before x a -> before x (img (a :: P) a)) by (intros x H; eapply before_key; [..|exact H]; reflexivity).
  assert (Aj : forall x, before a x -> before (img (a :: P) a) x) by (intros x H; eapply before_key; [..|exact H]; reflexivity).
  assert (Bi : forall b x, before x (img P b) -> before x (img (a :: P) b)) by (intros b x H; eapply before_key; [..|exact H]; reflexivity).
  assert (Bj : forall b x, before (img P b) x -> before (img (a :: P) b) x) by (intros b x H; eapply before_key; [..|exact H]; reflexivity).
  split.
  - unfold step_list. apply ss_app. split; [auto|]. split.
    + apply ss_app. split; [destruct pc; [apply ss_keep|constructor]|]. split.
      * apply ss_app. split; [apply ss_keep|]. split.
        -- apply ss_app. split; [destruct pb; [apply ss_keep|constructor]|]. split; [auto|].
           intros u v Hu Hv. apply KB in Hu. destruct Hu as (b & EB & -> & _). apply Bj. apply S23; auto.
        -- intros u v Hu Hv. apply keep_in in Hu. destruct Hu as (-> & _). apply Aj. apply in_app_iff in Hv. destruct Hv as [Hv|Hv].
           ++ apply KB in Hv. destruct Hv as (b & EB & -> & _). apply Bi. apply F2. apply in_or_app. left. auto.
           ++ apply F2. apply in_or_app. auto.
      * intros u v Hu Hv. apply KC in Hu. destruct Hu as (c & EC & -> & _). apply Bj. apply in_app_iff in Hv. destruct Hv as [Hv|Hv].
        -- apply keep_in in Hv. destruct Hv as (-> & _). apply Ai. apply F1. apply in_or_app. right. auto.
        -- apply in_app_iff in Hv. destruct Hv as [Hv|Hv].
           ++ apply KB in Hv. destruct Hv as (b & EB & -> & _). apply Bi. apply S3; apply in_or_app; [right|left]; auto.
           ++ apply S3; apply in_or_app; auto.
    + intros u v Hu Hv. apply in_app_iff in Hv. destruct Hv as [Hv|Hv].
      * apply KC in Hv. destruct Hv as (c & EC & -> & _). apply Bi. apply S13; auto.
      * apply in_app_iff in Hv. destruct Hv as [Hv|Hv].
        -- apply keep_in in Hv. destruct Hv as (-> & _). apply Ai. apply F1. apply in_or_app. auto.
        -- apply in_app_iff in Hv. destruct Hv as [Hv|Hv].
           ++ apply KB in Hv. destruct Hv as (b & EB & -> & _). apply Bi. apply S3; apply in_or_app; auto.
           ++ apply S3; apply in_or_app; auto.
  - (* those at the sides have not changed *)
    assert (SD : forall x, In x l1 \/ In x l2 -> In x l /\ (forall b, pb = Some b -> x <> img P b) /\ (forall c, pc = Some c -> x <> img P c)).
    { intros x H. split; [rewrite E; destruct H; apply in_or_app; [left|right]; apply in_or_app; auto|]. split.
      - intros b EB ->. destruct H as [H|H].
        + apply (before_irrefl (img P b) (img P b)); auto. apply S3; apply in_or_app; [left|left]; auto.
        + apply (before_irrefl (img P b) (img P b)); auto.
      - intros c EC ->. destruct H as [H|H].
        + apply (before_irrefl (img P c) (img P c)); auto.
        + apply (before_irrefl (img P c) (img P c)); auto. apply S3; apply in_or_app; [right|right]; auto. }
    intros x. unfold step_list. rewrite !in_app_iff. split.
    + intros [H|[H|[H|[H|H]]]].
      1,5: destruct (SD x) as (HL & NB & NC); [tauto|]; apply M in HL; destruct HL as (y & Y1 & Y2 & Y3);
           assert (IS : img (a :: P) y = img P y) by
             (apply img_same; [destruct (isnext y a) eqn:X; auto; exfalso; destruct pb as [b|] eqn:EB;
                [apply (NB b); auto; rewrite Y2; f_equal; apply pb_only; auto|pose proof (find_none _ _ EB y Y1) as Z; cbn beta in Z; congruence]
               |destruct (isnext a y) eqn:X; auto; exfalso; destruct pc as [c|] eqn:EC;
                [apply (NC c); auto; rewrite Y2; f_equal; apply pc_only; auto|pose proof (find_none _ _ EC y Y1) as Z; cbn beta in Z; congruence]]);
           exists y; split; [right; auto|]; split; [congruence|]; unfold live in *; rewrite IS; auto.
      * apply KC in H. destruct H as (c & EC & -> & H). exists c. split; [right; apply (c_state c EC)|]. auto.
      * apply keep_in in H. destruct H as (-> & H). exists a. split; [left; auto|auto].
      * apply KB in H. destruct H as (b & EB & -> & H). exists b. split; [right; apply (b_state b EB)|]. auto.
    + intros (y & [<-|Y1] & -> & Y2).
      * right. right. left. apply keep_in. auto.
      * destruct (isnext y a) eqn:X1.
        { right. right. right. left. destruct pb as [b|] eqn:EB; [|pose proof (find_none _ _ EB y Y1) as Z; cbn beta in Z; congruence].
          cbn [olist]. rewrite <- (pb_only b y); auto. apply keep_in. auto. }
        destruct (isnext a y) eqn:X2.
        { right. left. destruct pc as [b|] eqn:EB; [|pose proof (find_none _ _ EB y Y1) as Z; cbn beta in Z; congruence].
          cbn [olist]. rewrite <- (pc_only b y); auto. apply keep_in. auto. }
        assert (IS : img (a :: P) y = img P y) by (apply img_same; auto).
        assert (HL : In (img P y) l) by (apply M; exists y; split; [auto|]; split; [auto|]; unfold live in *; rewrite <- IS; auto).
        rewrite IS. rewrite E, !in_app_iff in HL. destruct HL as [[HL|HL]|[HL|HL]]; auto; exfalso.
        -- destruct pc as [c|] eqn:EC; [|destruct HL]. destruct HL as [HL|[]]. apply img_inj in HL; auto; [|apply (c_state c EC)].
           subst c. apply find_some_in in EC. destruct EC. congruence.
        -- destruct pb as [c|] eqn:EC; [|destruct HL]. destruct HL as [HL|[]]. apply img_inj in HL; auto; [|apply (b_state c EC)].
           subst c. apply find_some_in in EC. destruct EC. congruence.
Qed.
End Step.

(** * A run *)

Definition em (Q : list seg) (x : seg) : list iop :=
  if s_done x then [put_seg x None] else olist (fun c => [put_seg x (Some (s_id c))]) (find (isnext x) Q).
Definition emitted (Q : list seg) : list iop := flat_map (em Q) Q.

Lemma em_others P a : okset (a :: P) -> forall Q, incl Q P -> NoDup Q ->
  Permutation (flat_map (em (a :: P)) Q) (olist (fun b => [put_seg b (Some (s_id a))]) (find (fun b => isnext b a) Q) ++ flat_map (em P) Q).
Proof.
  intros OK. induction Q as [|x Q IH]; intros HI ND; cbn [flat_map find]; [constructor|].
  inversion ND as [|? ? N1 N2]; subst. specialize (IH (fun y Hy => HI y (or_intror Hy)) N2).
  assert (HX : In x P) by (apply HI; left; auto).
  destruct (isnext x a) eqn:E.
  - assert (D : s_done x = false) by (apply (proj2 (proj2 (proj2 OK)) x a); [right; auto|left; auto|auto]).
    assert (NF : find (isnext x) P = None).
    { destruct (find (isnext x) P) as [y|] eqn:Y; auto. exfalso. apply find_some_in in Y. pose proof (nxt_false P a OK x HX E) as Z.
      assert (nxt P x = true) by (apply existsb_exists; exists y; auto). congruence. }
    assert (NQ : find (fun b => isnext b a) Q = None).
    { destruct (find _ Q) as [y|] eqn:Y; auto. exfalso. apply find_some_in in Y. destruct Y as (Y1 & Y2). apply N1. replace x with y; auto.
      apply isnext_iff in E, Y2. apply (U P a OK); [right; apply HI; right; auto|right; auto|..]; [destruct E, Y2; congruence|lia]. }
    rewrite NQ in IH. cbn [olist app] in *. unfold em at 1 3. rewrite D. cbn [find]. rewrite E, NF. cbn [olist app]. apply perm_skip. exact IH.
  - replace (em (a :: P) x) with (em P x) by (unfold em; cbn [find]; rewrite E; auto).
    rewrite IH. rewrite !app_assoc. apply Permutation_app_tail. apply Permutation_app_comm.
Qed.

Lemma emitted_step P a : okset (a :: P) ->
  Permutation (emitted (a :: P)) ((if s_done a then [put_seg a None] else []) ++ step_ops P a ++ emitted P).
Proof.
  intros OK. unfold emitted at 1, step_ops. cbn [flat_map]. pose proof OK as (ND & _). inversion ND as [|? ? N1 N2]; subst.
  rewrite (em_others P a OK P (incl_refl _) N2). unfold em at 1. cbn [find]. rewrite isnext_self. fold (emitted P).
  destruct (s_done a) eqn:D.
  - assert (NF : find (isnext a) P = None).
    { destruct (find (isnext a) P) as [y|] eqn:Y; auto. exfalso. apply find_some_in in Y. destruct Y as (Y1 & Y2).
      pose proof (proj2 (proj2 (proj2 OK)) a y (or_introl eq_refl) (or_intror Y1) Y2). congruence. }
    rewrite NF. cbn [olist]. rewrite app_nil_r. reflexivity.
  - cbn [app]. rewrite !app_assoc. apply Permutation_app_tail. apply Permutation_app_comm.
Qed.

Inductive evt := Plain (o : iop) | Segm (s : seg).

Definition run_evt (v : evt) (segs : list seg) : res (list iop * list seg) :=
  match v with
  | Plain o => Ok ([o], segs)
  | Segm s => let* (o, l) := place_seg s segs in Ok ((if s_done s then [put_seg s None] else []) ++ o, l)
  end.
Fixpoint run_evts (vs : list evt) (segs : list seg) : res (list iop * list seg) :=
  match vs with
  | [] => Ok ([], segs)
  | v :: r => let* (o1, segs) := run_evt v segs in let* (o2, segs) := run_evts r segs in Ok (o1 ++ o2, segs)
  end.

Definition plains (vs : list evt) : list iop := flat_map (fun v => match v with Plain o => [o] | Segm _ => [] end) vs.
Definition segms (vs : list evt) : list seg := flat_map (fun v => match v with Plain _ => [] | Segm s => [s] end) vs.

Lemma okset_sub P Q : okset (P ++ Q) -> okset Q.
Proof.
  intros (A & B & C1 & D). assert (I : forall x, In x Q -> In x (P ++ Q)) by (intros; apply in_or_app; auto).
  split; [|split; [|split]]; [|intros x y Hx Hy; apply B; auto|intros x Hx; apply C1; auto|intros x y Hx Hy; apply D; auto].
  clear - A. induction P as [|x P IH]; auto. inversion A; auto.
Qed.

Lemma run_evts_ok vs : forall P l, kept P l -> okset (rev (segms vs) ++ P) ->
  exists ops l', run_evts vs l = Ok (ops, l') /\ kept (rev (segms vs) ++ P) l' /\
    Permutation (ops ++ emitted P) (plains vs ++ emitted (rev (segms vs) ++ P)).
Proof.
  induction vs as [|v r IH]; intros P l K OK; cbn [run_evts].
  - exists [], l. split; [auto|]. split; [auto|]. reflexivity.
  - destruct v as [o|s]; cbn [run_evt].
    + change (segms (Plain o :: r)) with (segms r) in *. change (plains (Plain o :: r)) with (o :: plains r).
      destruct (IH P l K OK) as (ops & l' & E & K' & PM). cbn [bind]. rewrite E. cbn [bind]. exists (o :: ops), l'.
      split; [auto|]. split; [auto|]. cbn [app]. apply perm_skip. auto.
    + change (segms (Segm s :: r)) with (s :: segms r) in *. change (plains (Segm s :: r)) with (plains r). cbn [rev] in *. rewrite <- app_assoc in *. cbn [app] in *.
      assert (OKs : okset (s :: P)) by (eapply okset_sub; exact OK).
      destruct (place_ok P l s OKs K) as (l1 & l2 & E & EL & F1 & F2). rewrite E. cbn [bind].
      destruct (IH (s :: P) (step_list P s l1 l2) (step_kept P l s OKs K l1 l2 EL F1 F2) OK) as (ops & l' & E' & K' & PM).
      rewrite E'. cbn [bind]. eexists. exists l'. split; [reflexivity|]. split; [auto|]. rewrite <- PM. rewrite (emitted_step P s OKs).
      rewrite (app_assoc _ (step_ops P s) (emitted P)). generalize ((if s_done s then [put_seg s None] else []) ++ step_ops P s). intros d.
      rewrite (app_assoc ops d). apply Permutation_app_tail. apply Permutation_app_comm.
Qed.

(* Complete sets: every segment but the last has its successor, every one but the
   first its predecessor. *)
Definition complete (Q : list seg) : Prop := forall x, In x Q ->
  (s_done x = false -> exists c, In c Q /\ isnext x c = true) /\
  (s_used x = false -> exists b, In b Q /\ isnext b x = true).

Lemma kept_complete Q l : complete Q -> kept Q l -> l = [].
Proof.
  intros CQ (_ & M). destruct l as [|x l]; auto. exfalso. destruct (proj1 (M x) (or_introl eq_refl)) as (a & A1 & -> & A2).
  destruct (CQ a A1) as (H1 & H2). unfold live in A2. cbn [img s_used s_done] in A2.
  assert (s_used a || prv Q a = true).
  { destruct (s_used a) eqn:E; auto. cbn [orb]. destruct (H2 eq_refl) as (b & B1 & B2). apply existsb_exists. exists b. auto. }
  assert (s_done a || nxt Q a = true).
  { destruct (s_done a) eqn:E; auto. cbn [orb]. destruct (H1 eq_refl) as (b & B1 & B2). apply existsb_exists. exists b. auto. }
  rewrite H, H0 in A2. discriminate.
Qed.

Theorem run_complete vs : okset (segms vs) -> complete (segms vs) ->
  exists ops, run_evts vs [] = Ok (ops, []) /\ Permutation ops (plains vs ++ emitted (rev (segms vs))).
Proof.
  intros OK CQ. set (Q := rev (segms vs)).
  assert (I : forall x, In x Q <-> In x (segms vs)) by (intros; unfold Q; symmetry; apply in_rev).
  assert (OQ : okset (Q ++ [])).
  { rewrite app_nil_r. destruct OK as (A & B & C1 & D). split; [apply NoDup_rev; auto|]. 
    split; [intros x y Hx Hy; apply B; apply I; auto|]. split; [intros x Hx; apply C1; apply I; auto|intros x y Hx Hy; apply D; apply I; auto]. }
  destruct (run_evts_ok vs [] []) as (ops & l' & E & K & PM); [|exact OQ|].
  { split; [constructor|]. intros x. split; [intros []|]. intros (a & [] & _). }
  exists ops. rewrite E. rewrite app_nil_r in K, PM. fold Q in K, PM.
  assert (l' = []) as ->.
  { apply (kept_complete Q); auto. intros x Hx. apply I in Hx. destruct (CQ x Hx) as (H1 & H2). split.
    - intros D. destruct (H1 D) as (c & X & Y). exists c. split; [apply I|]; auto.
    - intros D. destruct (H2 D) as (c & X & Y). exists c. split; [apply I|]; auto. }
  split; [auto|]. unfold emitted in PM at 1. cbn [flat_map] in PM. rewrite ?app_nil_r in PM. exact PM.
Qed.
End Match.
