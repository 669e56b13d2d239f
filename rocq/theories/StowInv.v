(* What holds at every moment of an exchange between stow and stevedore. *)
From Coq Require Import ZifyBool ZifyNat ZifyN.
From Verif Require Import Base BaseLemmas ListLemmas StowModel StowSpec StowProofs.
Open Scope list_scope.
Open Scope N_scope.

(* ---- lists ---- *)
Lemma app_last {A} (l1 l2 F : list A) e : ~ In e F -> In e l1 -> l1 ++ l2 = F ++ [e] -> l2 = [].
Proof.
  revert F. induction l1 as [|x l1 IH]; intros F NF I E; [contradiction|].
  destruct F as [|f F]; cbn in E.
  - injection E as E1 E2. apply app_eq_nil in E2. tauto.
  - injection E as E1 E. subst x. destruct I as [->|I]; [exfalso; apply NF; cbn; auto|]. apply (IH F); auto. intros H. apply NF. right. auto.
Qed.

Lemma forall2_app_inv_r {A B} (P : A -> B -> Prop) l l1 l2 : Forall2 P (l1 ++ l2) l ->
  exists m1 m2, l = m1 ++ m2 /\ Forall2 P l1 m1 /\ Forall2 P l2 m2.
Proof. intros H. apply Forall2_app_inv_l in H. destruct H as (m1 & m2 & H1 & H2 & ->). eauto. Qed.

Lemma filter_every {A} (f : A -> bool) l : (forall x, In x l -> f x = true) -> filter f l = l.
Proof. induction l as [|x l IH]; intros H; cbn; auto. rewrite H; [|cbn; auto]. f_equal. apply IH. intros. apply H. cbn. auto. Qed.

Section Inv.
Variables (idsize : N) (prefix : bytes) (sha : bytes -> bytes) (meta_text : list (bytes * bytes) -> list bytes) (tree : subj).
Variables (reads : list (list subj)) (arch : list bytes).
Notation key := (key idsize).
Notation covers := (covers idsize).

Hypothesis PL : plausible idsize sha prefix meta_text.
Hypothesis FILES : Forall fine_file (List.concat reads).
Hypothesis TREE : fine_tree sha tree.

Definition all : list subj := List.concat reads ++ [tree; theend].
Definition unread (c : client) : list subj := match c_tree c with Some r => List.concat r ++ [tree; theend] | None => [] end.
Definition chunks (x : subj) : list bytes := j_data x ++ [[]].
Definition rest (c : client) : list bytes := match c_send c with Some r => r ++ [[]] | None => [] end.
Definition held (s : server) : list bytes := match s_store s with Some d => d | None => [] end.
Definition look (j : option fjob) : list bytes :=
  match j with Some j => match f_out j with None => f_ids j | Some _ => [] end | None => [] end.
Definition virt (j : option fjob) : list bytes :=
  match j with
  | Some j => match f_out j with
              | None => []
              | Some [] => if f_skip j =? 0 then [] else [be_enc 4 (f_skip j)]
              | Some o => map (cut idsize) o
              end
  | None => []
  end.
Definition ids_of (l : list bytes) : list bytes := filter (fun p => 16 <=? len p) l.
Definition stands (d : bytes) (x : subj) : Prop :=
  (d = [] /\ x = theend) \/ (d <> [] /\ x <> theend /\ idsize <= len d <= 64 /\ cut idsize d = key x).

Definition job_ok (j : fjob) (s : server) (M : answers) : Prop :=
  f_ids j <> [] /\ Forall (fun d => idsize <= len d <= 64) (f_ids j) /\ incl arch (f_arch j) /\
  match f_out j with
  | None => f_skip j = len (f_ids j) /\ len (f_ids j) <= 40960 /\ incl (f_arch j) (s_arch s) /\
      (forall x, In (x, true) M -> x <> theend -> In (key x) (f_arch j))
  | Some o => Forall (fun d => idsize <= len d <= 64) o
  end.

Record core (w : world) (A K : answers) (U D : list subj) : Prop := {
  i_all : map fst A ++ map fst K ++ U ++ c_subj (w_c w) ++ unread (w_c w) = all;
  i_wait : c_wait (w_c w) = map fst K ++ U;
  i_cov : covers (pays (w_sc w) ++ virt (s_job (w_s w))) K;
  i_U : Forall2 stands (look (s_job (w_s w)) ++ s_queue (w_s w) ++ offered (w_cs w)) U;
  i_off : Forall2 stands (offered (w_hcs w)) (map fst A ++ map fst K ++ U);
  i_rep : reported (w_hsc w) ++ ids_of (virt (s_job (w_s w))) = map key (missing (A ++ K));
  i_th : forall x, In (x, true) (A ++ K) -> x <> theend -> In (key x) (s_arch (w_s w));
  i_end : ~ In (theend, false) (A ++ K);
  i_ms : forall x, In (x, false) (A ++ K) -> ~ In (key x) arch;
  i_job : forall j, s_job (w_s w) = Some j -> job_ok j (w_s w) (A ++ K);
  i_arch : incl arch (s_arch (w_s w));
  i_size : c_size (w_c w) = 64 \/ c_size (w_c w) = idsize;
  i_get : missing A = D ++ c_ack (w_c w) ++ c_get (w_c w);
  i_hist : datas (w_hcs w) ++ rest (w_c w) = List.concat (map chunks (D ++ c_ack (w_c w)));
  i_rest : forall r, c_send (w_c w) = Some r -> Forall (fun b => b <> []) r;
  i_D : forall x, In x D -> is_tree x = false }.
Definition idle (w : world) : Prop := s_job (w_s w) = None -> s_queue (w_s w) = [].

(* the frames of the metadata *)
Definition mm (D : list subj) : list bytes := j_dig tree :: meta_text (changes idsize sha D) ++ [[]].
Definition quiet (w : world) : Prop :=
  metas (w_hcs w) = [] /\ metas (w_cs w) = [] /\ s_meta (w_s w) = None /\ s_mrun (w_s w) = [] /\ rmetas (w_sc w) = [] /\
  c_up (w_c w) = true /\ s_up (w_s w) = true.
Inductive phase (w : world) (D : list subj) : list subj -> Prop :=
| ph_data : c_meta (w_c w) = None -> quiet w -> phase w D []
| ph_turn : c_meta (w_c w) = Some tree -> c_en (w_c w) = true -> quiet w -> phase w D [tree]
| ph_send l : c_meta (w_c w) = None -> metas (w_hcs w) = mm D -> metas (w_cs w) <> [] ->
    (s_meta (w_s w) = None /\ l = [] \/ s_meta (w_s w) = Some l /\ l <> []) -> l ++ metas (w_cs w) = mm D ->
    s_mrun (w_s w) = [] -> rmetas (w_sc w) = [] -> c_up (w_c w) = true -> s_up (w_s w) = true -> phase w D [tree]
| ph_run d : c_meta (w_c w) = None -> metas (w_hcs w) = mm D -> metas (w_cs w) = [] -> s_meta (w_s w) = None ->
    s_mrun (w_s w) = [d] -> rmetas (w_sc w) = [] -> c_up (w_c w) = true -> s_up (w_s w) = true -> phase w D [tree]
| ph_told p : c_meta (w_c w) = None -> metas (w_hcs w) = mm D -> metas (w_cs w) = [] -> s_meta (w_s w) = None ->
    s_mrun (w_s w) = [] -> rmetas (w_sc w) = [p] -> c_up (w_c w) = true -> s_up (w_s w) = true -> phase w D [tree]
| ph_over : c_meta (w_c w) = None -> metas (w_hcs w) = mm D -> metas (w_cs w) = [] -> s_meta (w_s w) = None ->
    s_mrun (w_s w) = [] -> rmetas (w_sc w) = [] -> c_up (w_c w) = false -> phase w D [tree].

Definition filed (x : subj) : bytes := cut idsize (sha (content x)).

Record fresh (w : world) (A K : answers) (U D T R X Y : list subj) : Prop := {
  f_new : ~ In (tree, true) (A ++ K);
  f_ack : c_ack (w_c w) = T ++ R ++ X ++ Y;
  f_R : rdatas (w_sc w) = map (fun x => prefix ++ filed x) R;
  f_X : s_run (w_s w) = map j_data X;
  f_one : (List.length X <= 1)%nat;
  f_en : s_en (w_s w) = is_nil X;
  f_stream : held (w_s w) ++ datas (w_cs w) ++ rest (w_c w) = List.concat (map chunks Y);
  f_store : forall d, s_store (w_s w) = Some d -> d <> [] /\ Forall (fun b => b <> []) d;
  f_chg : c_changed (w_c w) = changes idsize sha D;
  f_arc : forall x, In x (D ++ T ++ R) -> In (filed x) (s_arch (w_s w));
  f_E : c_en (w_c w) = false -> c_subj (w_c w) = [] /\ c_meta (w_c w) = None /\ (c_send (w_c w) = None -> c_get (w_c w) = []);
  f_V : In theend (map fst A) -> c_get (w_c w) <> [] -> c_send (w_c w) = None -> R ++ X ++ Y <> [];
  f_W : In theend (map fst A) -> c_send (w_c w) <> None -> c_en (w_c w) = false -> (2 <= List.length (R ++ X ++ Y))%nat;
  f_ph : phase w D T }.

(* ---- where things are ---- *)
Lemma SIZE : 16 <= idsize <= 64.
Proof. apply PL. Qed.

Lemma fine_dig x : In x (List.concat reads ++ [tree]) -> len (j_dig x) = 64.
Proof.
  rewrite in_app_iff. intros [H|[<-|[]]].
  - rewrite Forall_forall in FILES. apply FILES. auto.
  - apply TREE.
Qed.
Lemma fine_not_end x : In x (List.concat reads ++ [tree]) -> x <> theend.
Proof. intros H ->. apply fine_dig in H. cbn in H. lia. Qed.
Lemma in_all x : In x all -> x = theend \/ (x <> theend /\ len (j_dig x) = 64 /\ fine_data x).
Proof.
  unfold all. rewrite in_app_iff. cbn. intros [H|[<-|[<-|[]]]]; auto; right.
  - split; [apply fine_not_end; rewrite in_app_iff; auto|]. split; [apply fine_dig; rewrite in_app_iff; auto|].
    rewrite Forall_forall in FILES. apply FILES. auto.
  - split; [apply fine_not_end; rewrite in_app_iff; cbn; auto|]. split; apply TREE.
Qed.
Lemma all_split : all = (List.concat reads ++ [tree]) ++ [theend].
Proof. unfold all. rewrite <- app_assoc. auto. Qed.
Lemma end_last l1 l2 : l1 ++ l2 = all -> In theend l1 -> l2 = [].
Proof. rewrite all_split. intros E I. eapply app_last; eauto. intros H. apply fine_not_end in H. auto. Qed.
Lemma is_tree_all x : In x all -> is_tree x = true -> x = tree.
Proof.
  unfold all. rewrite in_app_iff. cbn. intros [H|[<-|[<-|[]]]] T; auto.
  - rewrite Forall_forall in FILES. destruct (FILES _ H) as [F _]. unfold is_tree in T. rewrite F in T. discriminate.
  - discriminate.
Qed.
Lemma tree_is : is_tree tree = true.
Proof. unfold is_tree. destruct TREE as (-> & D & _). destruct (j_dig tree); auto. cbn in D. lia. Qed.
Lemma tree_not_end : tree <> theend.
Proof. apply fine_not_end. rewrite in_app_iff. cbn. auto. Qed.
Lemma tree_not_file x : In x (List.concat reads) -> x <> tree.
Proof. intros H ->. rewrite Forall_forall in FILES. destruct (FILES _ H) as [F _]. destruct TREE as [G _]. congruence. Qed.
Lemma tree_last l1 l2 : l1 ++ l2 = all -> In tree l1 -> l2 = [] \/ l2 = [theend].
Proof.
  unfold all. intros E I. destruct (exists_last (l := l1 ++ l2)) as (p & e & Q).
  { rewrite E. destruct (List.concat reads); discriminate. }
  assert (e = theend).
  { rewrite E in Q. change [tree; theend] with ([tree] ++ [theend]) in Q. rewrite app_assoc in Q. apply app_inj_tail in Q. destruct Q. auto. }
  subst e. destruct l2 as [|y l2] using rev_ind; auto. right. clear IHl2.
  rewrite app_assoc in Q, E. apply app_inj_tail in Q. destruct Q as [Q ->].
  change [tree; theend] with ([tree] ++ [theend]) in E. rewrite (app_assoc (List.concat reads)) in E. apply app_inj_tail in E. destruct E as [E _].
  apply app_last in E; auto; [subst; auto|]. intros H. apply tree_not_file in H. auto.
Qed.

Lemma map_fst_in x (K : answers) : In x (map fst K) <-> In (x, true) K \/ In (x, false) K.
Proof.
  rewrite in_map_iff. split.
  - intros ([y b] & <- & H). cbn. destruct b; auto.
  - intros [H|H]; eexists; split; eauto; auto.
Qed.

Section Core.
Variables (w : world) (A K : answers) (U D : list subj).
Hypothesis C : core w A K U D.

Lemma core_in x : In x (map fst A ++ map fst K ++ U ++ c_subj (w_c w)) -> x = theend \/ (x <> theend /\ len (j_dig x) = 64 /\ fine_data x).
Proof. intros H. apply in_all. rewrite <- (i_all _ _ _ _ _ C). rewrite !app_assoc in *. rewrite in_app_iff. auto. Qed.
Lemma core_end_A : In theend (map fst A) -> K = [] /\ U = [] /\ c_subj (w_c w) = [] /\ unread (w_c w) = [].
Proof.
  intros H. pose proof (end_last _ _ (i_all _ _ _ _ _ C) H) as E. apply app_eq_nil in E. destruct E as [E1 E]. apply app_eq_nil in E. destruct E as [E2 E].
  apply app_eq_nil in E. destruct E. destruct K; [auto|discriminate].
Qed.
Lemma core_end_K : In theend (map fst K) -> U = [] /\ c_subj (w_c w) = [] /\ unread (w_c w) = [].
Proof.
  intros H. pose proof (i_all _ _ _ _ _ C) as E. rewrite app_assoc in E. apply end_last in E; [|apply in_app_iff; auto].
  apply app_eq_nil in E. destruct E as [E2 E]. apply app_eq_nil in E. destruct E. auto.
Qed.
Lemma core_end_U p q : U = p ++ theend :: q -> q = [] /\ c_subj (w_c w) = [] /\ unread (w_c w) = [] /\ ~ In theend (map fst A) /\ ~ In theend (map fst K).
Proof.
  intros EU. pose proof (i_all _ _ _ _ _ C) as E. rewrite EU in E.
  replace (map fst A ++ map fst K ++ (p ++ theend :: q) ++ c_subj (w_c w) ++ unread (w_c w))
    with ((map fst A ++ map fst K ++ p ++ [theend]) ++ q ++ c_subj (w_c w) ++ unread (w_c w)) in E by (rewrite <- !app_assoc; auto).
  pose proof (end_last _ _ E) as E'. rewrite !in_app_iff in E'. cbn in E'. specialize (E' (or_intror (or_intror (or_intror (or_introl eq_refl))))).
  apply app_eq_nil in E'. destruct E' as [-> E']. apply app_eq_nil in E'. destruct E' as [E1 E2]. split; auto. split; auto. split; auto. split.
  - intros H. apply core_end_A in H. destruct H as (_ & H & _). rewrite EU in H. destruct p; discriminate.
  - intros H. apply core_end_K in H. destruct H as (H & _). rewrite EU in H. destruct p; discriminate.
Qed.
Lemma core_K64 x : In x (map fst K) -> x = theend \/ len (j_dig x) = 64.
Proof. intros H. destruct (core_in x) as [|(? & ? & ?)]; auto. rewrite !in_app_iff. auto. Qed.
End Core.

Lemma in_split_A x (A : answers) b : In (x, b) A -> exists A1 A2, A = A1 ++ (x, b) :: A2.
Proof. apply in_split. Qed.

Lemma tree_done w A K U D T R X Y : core w A K U D -> c_ack (w_c w) = T ++ R ++ X ++ Y -> T = [tree] ->
  R = [] /\ X = [] /\ Y = [] /\ c_get (w_c w) = [] /\ In (tree, false) A.
Proof.
  intros C E ->. pose proof (i_get _ _ _ _ _ C) as G. rewrite E in G. rewrite <- !app_assoc in G.
  assert (I : In (tree, false) A). { apply in_missing. rewrite G. rewrite in_app_iff. cbn. auto. }
  destruct (in_split_A _ _ _ I) as (A1 & A2 & EA). rewrite EA in G. rewrite missing_app in G. cbn in G.
  pose proof (i_all _ _ _ _ _ C) as L. rewrite EA, map_app in L. cbn in L.
  assert (N1 : ~ In tree (map fst A1)).
  { intros H. rewrite <- app_assoc in L. apply tree_last in L; auto. cbn in L. destruct L as [L|L]; [discriminate|].
    injection L as L _. apply tree_not_end. auto. }
  assert (M2 : missing A2 = []).
  { assert (L' : (map fst A1 ++ [tree]) ++ map fst A2 ++ map fst K ++ U ++ c_subj (w_c w) ++ unread (w_c w) = all).
    { rewrite <- L. rewrite <- !app_assoc. auto. }
    apply tree_last in L'; [|rewrite in_app_iff; cbn; auto].
    assert (forall x, In x (missing A2) -> x = theend).
    { intros x H. assert (In x (map fst A2)) by (apply map_fst_in; right; apply in_missing; auto).
      destruct L' as [L'|L'].
      - apply app_eq_nil in L'. destruct L' as [L' _]. rewrite L' in H0. contradiction.
      - assert (In x [theend]) by (rewrite <- L'; rewrite in_app_iff; auto). cbn in H1. intuition. }
    destruct (missing A2) as [|y l] eqn:Q; auto. exfalso. rewrite (H y (or_introl eq_refl)) in Q.
    apply (i_end _ _ _ _ _ C). rewrite EA, !in_app_iff. left. right. right. apply in_missing. rewrite Q. cbn. auto. }
  change (tree :: missing A2) with ([tree] ++ missing A2) in G. fold (missing A2) in G. rewrite M2 in G. cbn [app] in G.
  assert (G' : (D ++ [tree]) ++ (R ++ X ++ Y ++ c_get (w_c w)) = missing A1 ++ [tree]).
  { rewrite G. rewrite <- !app_assoc. auto. }
  apply app_last in G'.
  - apply app_eq_nil in G'. destruct G' as [-> G']. apply app_eq_nil in G'. destruct G' as [-> G']. apply app_eq_nil in G'. destruct G' as [-> G']. auto.
  - intros H. apply N1. apply map_fst_in. right. apply in_missing. auto.
  - rewrite in_app_iff. cbn. auto.
Qed.

(* ---- the client writes ---- *)
Definition closing (c : client) : list bytes := match c_send c with Some _ => [[]] | None => [] end.
Definition mframes (c : client) : list bytes :=
  match c_meta c with Some x => j_dig x :: meta_text (c_changed c) ++ [[]] | None => [] end.

Lemma frames_filter n l : offered (map (fun x => FFilter (cut n (j_dig x))) l) = map (fun x => cut n (j_dig x)) l /\
  datas (map (fun x => FFilter (cut n (j_dig x))) l) = [] /\ metas (map (fun x => FFilter (cut n (j_dig x))) l) = [].
Proof. induction l as [|x l (I1 & I2 & I3)]; cbn; auto. rewrite I1. auto. Qed.
Lemma frames_meta l : offered (map FMeta l) = [] /\ datas (map FMeta l) = [] /\ metas (map FMeta l) = l.
Proof. induction l as [|x l (I1 & I2 & I3)]; cbn; auto. rewrite I3. auto. Qed.

Lemma out_cases c c' f : stevedore_out meta_text c = (c', f) ->
  let now := firstn 10 (c_subj c) in let later := skipn 10 (c_subj c) in
  offered f = map (fun x => cut (c_size c) (j_dig x)) now /\ c_subj c' = later /\ c_wait c' = c_wait c ++ now /\
  c_tree c' = c_tree c /\ c_size c' = c_size c /\ c_changed c' = c_changed c /\ c_up c' = c_up c /\
  ((exists b r, c_send c = Some (b :: r) /\ c_send c' = Some r /\ datas f = [b] /\ metas f = [] /\
     c_get c' = c_get c /\ c_ack c' = c_ack c /\ c_meta c' = c_meta c /\ c_en c' = c_en c) \/
   ((c_send c = None \/ c_send c = Some []) /\ datas f = closing c /\
    ((later <> [] /\ c_send c' = None /\ metas f = [] /\ c_get c' = c_get c /\ c_ack c' = c_ack c /\ c_meta c' = c_meta c /\ c_en c' = c_en c) \/
     (later = [] /\ exists x, c_get c = x :: c_get c' /\ j_file x = true /\ c_ack c' = c_ack c ++ [x] /\ c_send c' = Some (j_data x) /\
        metas f = mframes c /\ c_meta c' = None /\ c_en c' = false) \/
     (later = [] /\ exists x, c_get c = x :: c_get c' /\ j_file x = false /\ c_ack c' = c_ack c ++ [x] /\ c_send c' = Some (j_data x) /\
        metas f = [] /\ c_meta c' = c_meta c /\ c_en c' = c_en c) \/
     (later = [] /\ c_get c = [] /\ c_get c' = [] /\ c_ack c' = c_ack c /\ c_send c' = None /\ metas f = mframes c /\ c_meta c' = None /\ c_en c' = false)))).
Proof.
  unfold stevedore_out. cbv zeta. generalize (firstn 10 (c_subj c)) (skipn 10 (c_subj c)). intros now later.
  destruct (frames_filter (c_size c) now) as (F1 & F2 & F3). unfold closing, mframes.
  assert (MF : forall x, let g := send_metadata meta_text x (c_changed c) in
     offered g = [] /\ datas g = [] /\ metas g = j_dig x :: meta_text (c_changed c) ++ [[]]).
  { intros x. cbv zeta. unfold send_metadata. destruct (frames_meta (meta_text (c_changed c))) as (M1 & M2 & M3).
    cbn. rewrite offered_app, datas_app, metas_app, M1, M2, M3. auto. }
  assert (G : let f3 := match c_meta c with Some x => send_metadata meta_text x (c_changed c) | None => [] end in
     offered f3 = [] /\ datas f3 = [] /\ metas f3 = match c_meta c with Some x => j_dig x :: meta_text (c_changed c) ++ [[]] | None => [] end).
  { destruct (c_meta c); cbv zeta; auto. }
  cbv zeta in G. destruct G as (G1 & G2 & G3).
  destruct (c_send c) as [[|b r]|] eqn:ES.
  2:{ intros [= <- <-]. cbn. rewrite offered_app, datas_app, metas_app, F1, F2, F3. cbn. rewrite app_nil_r. repeat split; auto.
      left. exists b, r. auto 10. }
  all: destruct later as [|y l];
    [destruct (c_get c) as [|x g] eqn:EG; [|destruct (j_file x) eqn:EX]|];
    intros [= <- <-]; cbn [c_subj c_wait c_tree c_size c_changed c_up c_send c_get c_ack c_meta c_en];
    rewrite ?offered_app, ?datas_app, ?metas_app, F1, F2, F3, ?G1, ?G2, ?G3; cbn [app offered datas metas]; rewrite ?G1, ?G2, ?G3, ?app_nil_r;
    repeat (split; [reflexivity|]); right; (split; [auto|]); (split; [auto|]).
  1,5: right; right; right; auto 10.
  1,4: right; left; split; auto; exists x; auto 10.
  1,3: right; right; left; split; auto; exists x; auto 10.
  all: left; split; [discriminate|]; auto 10.
Qed.

Definition inv (fr : Prop) (w : world) : Prop := exists A K U D, core w A K U D /\ idle w /\
  (fr -> exists T R X Y, fresh w A K U D T R X Y).

Definition out_w (w : world) : world :=
  let (c, f) := stevedore_out meta_text (w_c w) in mkW c (w_s w) (w_cs w ++ f) (w_sc w) (w_hcs w ++ f) (w_hsc w).

Lemma stands_frames w A K U D : core w A K U D ->
  Forall2 stands (map (fun x => cut (c_size (w_c w)) (j_dig x)) (firstn 10 (c_subj (w_c w)))) (firstn 10 (c_subj (w_c w))).
Proof.
  intros C. assert (H : forall x, In x (firstn 10 (c_subj (w_c w))) -> x = theend \/ (x <> theend /\ len (j_dig x) = 64 /\ fine_data x)).
  { intros x I. eapply core_in; eauto. rewrite !in_app_iff. right. right. right. rewrite <- (firstn_skipn 10). apply in_app_iff. auto. }
  pose proof (i_size _ _ _ _ _ C) as SZ. pose proof SIZE as SI.
  induction (firstn 10 (c_subj (w_c w))) as [|x l IH]; cbn [map]; constructor.
  - destruct (H x) as [->|(N & L & _)]; [cbn; auto| |].
    + left. split; auto. unfold cut. apply firstn_nil.
    + right. assert (Q : idsize <= c_size (w_c w) <= 64) by (destruct SZ as [-> | ->]; lia).
      assert (LC : len (cut (c_size (w_c w)) (j_dig x)) = c_size (w_c w)) by (apply cut_len; lia). split; [|split; auto; split].
      * intros E. rewrite E in LC. cbn in LC. lia.
      * lia.
      * apply cut_cut. lia.
  - apply IH. intros y Y. apply H. cbn. auto.
Qed.

Lemma chunks_app l x : List.concat (map chunks (l ++ [x])) = List.concat (map chunks l) ++ chunks x.
Proof. rewrite map_app, concat_app. cbn. rewrite app_nil_r. auto. Qed.

Lemma app_tail {A} (p : list A) e l F : p ++ [e] = F ++ l -> l <> [] -> exists q, l = q ++ [e].
Proof.
  intros H N. destruct l as [|x l] using rev_ind; [contradiction|]. clear IHl. rewrite app_assoc in H. apply app_inj_tail in H. destruct H as [_ ->]. eauto.
Qed.

Lemma quiet_out w c f : quiet w -> c_up c = true -> metas f = [] ->
  quiet (mkW c (w_s w) (w_cs w ++ f) (w_sc w) (w_hcs w ++ f) (w_hsc w)).
Proof. unfold quiet. cbn. intros (Q1 & Q2 & Q3 & Q4 & Q5 & Q6 & Q7) U M. rewrite !metas_app, Q1, Q2, M. repeat split; auto. Qed.

(* the phase if no metadata is sent *)
Lemma phase_out w c f D T : phase w D T -> c_up c = c_up (w_c w) -> metas f = [] -> c_meta c = c_meta (w_c w) ->
  (c_meta c <> None -> c_en c = c_en (w_c w)) -> phase (mkW c (w_s w) (w_cs w ++ f) (w_sc w) (w_hcs w ++ f) (w_hsc w)) D T.
Proof.
  intros H U M CM E. destruct H.
  - apply ph_data; cbn; [congruence|]. apply quiet_out; auto. rewrite U. apply H0.
  - apply ph_turn; cbn; try congruence.
    + rewrite E; [auto|congruence].
    + apply quiet_out; auto. rewrite U. apply H1.
  - apply ph_send with l; cbn; rewrite ?metas_app, ?M, ?app_nil_r; auto; congruence.
  - apply ph_run with d; cbn; rewrite ?metas_app, ?M, ?app_nil_r; auto; congruence.
  - apply ph_told with p; cbn; rewrite ?metas_app, ?M, ?app_nil_r; auto; congruence.
  - apply ph_over; cbn; rewrite ?metas_app, ?M, ?app_nil_r; auto; congruence.
Qed.

Lemma inv_out fr w : inv fr w -> c_en (w_c w) = true -> c_up (w_c w) = true ->
  inv fr (out_w w) /\ (c_send (w_c (out_w w)) = None -> c_get (w_c (out_w w)) <> [] -> c_subj (w_c (out_w w)) <> []).
Proof.
  intros (A & K & U & D & C & I & F) EN UP. unfold out_w. destruct (stevedore_out meta_text (w_c w)) as [c f] eqn:EO.
  pose proof (stands_frames _ _ _ _ _ C) as SF.
  apply out_cases in EO. destruct EO as (O1 & O2 & O3 & O4 & O5 & O6 & O7 & O8).
  assert (SUB : firstn 10 (c_subj (w_c w)) ++ c_subj c = c_subj (w_c w)) by (rewrite O2; apply firstn_skipn).
  split.
  2:{ cbn. intros S G. rewrite O2. destruct O8 as [(b & r & H)|(_ & _ & [H|[(_ & x & H)|[(_ & x & H)|H]]])].
      - destruct H as (_ & H & _). congruence.
      - apply H.
      - destruct H as (_ & _ & _ & H & _). congruence.
      - destruct H as (_ & _ & _ & H & _). congruence.
      - destruct H as (_ & _ & H & _). congruence. }
  set (now := firstn 10 (c_subj (w_c w))) in *.
  exists A, K, (U ++ now), D. split; [|split].
  - (* core *)
    destruct C. constructor; cbn; auto.
    + rewrite <- i_all0. unfold unread. rewrite O4. rewrite <- (app_assoc U), (app_assoc now), SUB. auto.
    + rewrite O3, i_wait0, <- app_assoc. auto.
    + rewrite offered_app, O1, !app_assoc. rewrite app_assoc in i_U0. apply Forall2_app; auto.
    + rewrite offered_app, O1, !app_assoc. rewrite app_assoc in i_off0. apply Forall2_app; auto.
    + congruence.
    + rewrite i_get0. destruct O8 as [(b & r & H)|(_ & _ & [H|[(_ & x & H)|[(_ & x & H)|H]]])].
      * destruct H as (_ & _ & _ & _ & -> & -> & _). auto.
      * destruct H as (_ & _ & _ & -> & -> & _). auto.
      * destruct H as (-> & _ & -> & _). rewrite <- app_assoc. auto.
      * destruct H as (-> & _ & -> & _). rewrite <- app_assoc. auto.
      * destruct H as (_ & -> & -> & -> & _). auto.
    + rewrite datas_app. unfold rest, closing in *. destruct O8 as [(b & r & H)|(S & HD & [H|[(_ & x & H)|[(_ & x & H)|H]]])].
      * destruct H as (S1 & -> & -> & _ & _ & -> & _). rewrite S1 in i_hist0. rewrite <- i_hist0, <- app_assoc. auto.
      * destruct H as (_ & -> & _ & _ & -> & _). rewrite HD, <- i_hist0, app_nil_r. destruct S as [-> | ->]; auto.
      * destruct H as (_ & _ & -> & -> & _). rewrite HD. rewrite (app_assoc D), chunks_app, <- i_hist0. unfold chunks.
        destruct S as [-> | ->]; rewrite ?app_nil_r; auto.
      * destruct H as (_ & _ & -> & -> & _). rewrite HD. rewrite (app_assoc D), chunks_app, <- i_hist0. unfold chunks.
        destruct S as [-> | ->]; rewrite ?app_nil_r; auto.
      * destruct H as (_ & _ & _ & -> & -> & _). rewrite HD, <- i_hist0, app_nil_r. destruct S as [-> | ->]; auto.
    + assert (FG : forall x, In x (c_get (w_c w)) -> Forall (fun b => b <> []) (j_data x)).
      { intros x IX. assert (IM : In (x, false) A) by (apply in_missing; rewrite i_get0, !in_app_iff; auto).
        destruct (in_all x) as [->|(_ & _ & FD)]; [|exfalso; apply i_end0; rewrite in_app_iff; auto|apply FD].
        rewrite <- i_all0. rewrite in_app_iff. left. apply in_map_iff. exists (x, false). auto. }
      intros r0 SR. destruct O8 as [(b & r & H)|(_ & _ & [H|[(_ & x & H)|[(_ & x & H)|H]]])].
      * destruct H as (S1 & S2 & _). rewrite S2 in SR. injection SR as <-. apply i_rest0 in S1. inversion S1; auto.
      * destruct H as (_ & S2 & _). congruence.
      * destruct H as (G1 & _ & _ & S2 & _). rewrite S2 in SR. injection SR as <-. apply FG. rewrite G1. cbn. auto.
      * destruct H as (G1 & _ & _ & S2 & _). rewrite S2 in SR. injection SR as <-. apply FG. rewrite G1. cbn. auto.
      * destruct H as (_ & _ & _ & _ & S2 & _). congruence.
  - exact I.
  - intros FR. destruct (F FR) as (T & R & X & Y & H). clear F.
    pose proof (f_ack _ _ _ _ _ _ _ _ _ H) as AK.
    assert (PH : metas f = [] -> c_meta c = c_meta (w_c w) -> (c_meta c <> None -> c_en c = c_en (w_c w)) ->
       phase (mkW c (w_s w) (w_cs w ++ f) (w_sc w) (w_hcs w ++ f) (w_hsc w)) D T).
    { intros. apply phase_out; auto. apply H. }
    assert (MT : c_meta (w_c w) <> None -> T = [tree] /\ c_meta (w_c w) = Some tree /\ quiet w).
    { pose proof (f_ph _ _ _ _ _ _ _ _ _ H) as P. destruct P; auto; congruence. }
    assert (YN : forall x, c_send (w_c w) = Some x -> Y <> []).
    { intros x E ->. pose proof (f_stream _ _ _ _ _ _ _ _ _ H) as S. unfold rest in S. rewrite E in S. cbn in S.
      apply app_eq_nil in S. destruct S as [_ S]. apply app_eq_nil in S. destruct S as [_ S]. destruct x; discriminate. }
    (* the phase when metadata may be sent *)
    assert (PM : metas f = mframes (w_c w) -> c_meta c = None -> phase (mkW c (w_s w) (w_cs w ++ f) (w_sc w) (w_hcs w ++ f) (w_hsc w)) D T).
    { intros M1 M2. destruct (c_meta (w_c w)) as [t|] eqn:EM.
      - destruct (MT ltac:(discriminate)) as (-> & TT & Q1 & Q2 & Q3 & Q4 & Q5 & Q6 & Q7). injection TT as ->.
        unfold mframes in M1. rewrite EM, (f_chg _ _ _ _ _ _ _ _ _ H) in M1. fold (mm D) in M1.
        apply ph_send with []; cbn; rewrite ?metas_app, ?Q1, ?Q2, ?M1; cbn; auto; try congruence. discriminate.
      - apply PH; try congruence. unfold mframes in M1. rewrite EM in M1. auto. }
    destruct O8 as [(b & r & S1 & S2 & HD & HM & G & AA & M & E)|(S & HD & [(L & S2 & HM & G & AA & M & E)|[(L & x & G & FX & AA & S2 & HM & M & E)|[(L & x & G & FX & AA & S2 & HM & M & E)|(L & G & G2 & AA & S2 & HM & M & E)]]])].
    + exists T, R, X, Y. destruct H; constructor; cbn; auto; try congruence.
      * rewrite datas_app, HD. unfold rest in *. rewrite S2. rewrite S1 in f_stream0. rewrite <- f_stream0, <- app_assoc. auto.
    + exists T, R, X, Y. destruct H; constructor; cbn; auto; try congruence.
      * rewrite datas_app, HD. unfold rest, closing in *. rewrite S2, app_nil_r, <- f_stream0. destruct S as [-> | ->]; auto.
      * intros IE. apply (core_end_A _ _ _ _ _ C) in IE. destruct IE as (_ & _ & IE & _). rewrite <- SUB in IE. apply app_eq_nil in IE. rewrite O2 in IE. tauto.
    + exists T, R, X, (Y ++ [x]).
      destruct H; constructor; cbn; auto; try congruence.
      * rewrite AA, AK, <- !app_assoc. auto.
      * rewrite datas_app, HD. unfold rest, closing in *. rewrite S2, chunks_app, <- f_stream0. unfold chunks. destruct S as [-> | ->]; rewrite ?app_nil_r, <- ?app_assoc; auto.
      * intros _. rewrite O2, M. split; auto. split; auto. intros Z. congruence.
      * intros IE _ _. assert (Q : R ++ X ++ Y <> []).
        { destruct S as [S|S].
          - apply f_V0; auto. congruence.
          - intros Q. apply app_eq_nil in Q. destruct Q as [_ Q]. apply app_eq_nil in Q. destruct Q as [_ Q]. apply (YN _ S). auto. }
        rewrite !app_assoc, app_length. cbn. rewrite <- app_assoc. destruct (R ++ X ++ Y); [contradiction|]. cbn. lia.
    + exists T, R, X, (Y ++ [x]).
      destruct H; constructor; cbn; auto; try congruence.
      * rewrite AA, AK, <- !app_assoc. auto.
      * rewrite datas_app, HD. unfold rest, closing in *. rewrite S2, chunks_app, <- f_stream0. unfold chunks. destruct S as [-> | ->]; rewrite ?app_nil_r, <- ?app_assoc; auto.
    + exists T, R, X, Y. destruct H; constructor; cbn; auto; try congruence.
      * rewrite datas_app, HD. unfold rest, closing in *. rewrite S2, app_nil_r, <- f_stream0. destruct S as [-> | ->]; auto.
      * intros _. rewrite O2, G2. auto.
Qed.

(* ---- the client reads ---- *)
Definition in_w (w : world) (c : client) (r : list smsg) : world := mkW c (w_s w) (w_cs w) r (w_hcs w) (w_hsc w).

Lemma behind_app q s : ~ In 47 s -> behind (q ++ [47] ++ s) = Some s.
Proof.
  intros N. assert (B : behind s = None).
  { induction s as [|c s IH]; cbn; auto. rewrite IH; [|cbn in N; tauto]. destruct (c =? 47) eqn:E; auto. exfalso. apply N. cbn. left. lia. }
  induction q as [|c q IH]; cbn; [rewrite B; auto|]. cbn in IH. rewrite IH. auto.
Qed.
Lemma behind_id x : behind (prefix ++ filed x) = Some (filed x).
Proof.
  destruct (pl_prefix _ _ _ _ PL) as (q & ->). rewrite <- app_assoc. apply behind_app. intros H.
  unfold filed, cut in H. destruct (pl_sha _ _ _ _ PL (content x)) as [_ N]. apply N. rewrite <- (firstn_skipn (N.to_nat idsize)). apply in_app_iff. auto.
Qed.
Lemma filed_len x : len (filed x) = idsize.
Proof. apply cut_len. destruct (pl_sha _ _ _ _ PL (content x)) as [-> _]. apply SIZE. Qed.

Lemma changes_app a b : changes idsize sha (a ++ b) = changes idsize sha a ++ changes idsize sha b.
Proof. induction a as [|x a IH]; cbn; auto. destruct (bytes_eqb _ _); auto. rewrite IH. auto. Qed.

Lemma covers_ne q P K : covers (q :: P) K -> K <> [].
Proof.
  intros H. inversion H as [|x P' L K' HL HN DX HC'|p P' L K' HQ HL HT HC'|L HL]; subst.
  - destruct L; discriminate.
  - destruct L; [cbn in HL; lia|discriminate].
  - destruct L; discriminate.
Qed.

Lemma stream_full w A K U D T R X Y : core w A K U D -> fresh w A K U D T R X Y -> U = [] -> T = [] -> w_cs w <> [] -> Y <> [].
Proof.
  intros C H -> -> N ->. apply N. apply no_frames.
  - pose proof (i_U _ _ _ _ _ C) as IU. inversion IU as [E|]. symmetry in E. apply app_eq_nil in E. destruct E as [_ E]. apply app_eq_nil in E. tauto.
  - pose proof (f_stream _ _ _ _ _ _ _ _ _ H) as S. cbn in S. apply app_eq_nil in S. destruct S as [_ S]. apply app_eq_nil in S. tauto.
  - pose proof (f_ph _ _ _ _ _ _ _ _ _ H) as P. inversion P as [Q1 Q2| | | | |]. apply Q2.
Qed.

Lemma in_all_A w A K U D x : core w A K U D -> In x (map fst A) \/ In x (map fst K) -> In x all.
Proof. intros C H. rewrite <- (i_all _ _ _ _ _ C). rewrite !in_app_iff. tauto. Qed.

Lemma inv_in fr w m r c : inv fr w -> w_sc w = m :: r -> stevedore_in m (w_c w) = Ok c ->
  (fr -> c_up (w_c w) = true -> c_send (w_c w) = None -> c_get (w_c w) <> [] -> w_cs w <> [] \/ c_subj (w_c w) <> []) ->
  inv fr (in_w w c r).
Proof.
  intros (A & K & U & D & C & I & F) SC E PRE. destruct m as [|p|p|p]; cbn in E.
  - (* a message *)
    injection E as <-. exists A, K, U, D. split; [|split; [exact I|]].
    + destruct C; constructor; cbn; auto. rewrite SC in i_cov0. auto.
    + intros FR. destruct (F FR) as (T & R & X & Y & H). exists T, R, X, Y. destruct H; constructor; cbn; auto.
      * rewrite SC in f_R0. auto.
      * destruct f_ph0 as [? Q|? ? Q| | | |]; [apply ph_data|apply ph_turn|eapply ph_send|eapply ph_run|eapply ph_told|apply ph_over]; cbn; eauto; rewrite ?SC in *; eauto.
        -- unfold quiet in *. cbn. rewrite SC in Q. auto.
        -- unfold quiet in *. cbn. rewrite SC in Q. auto.
  - (* an answer *)
    pose proof (filter_resp_up _ _ _ E) as UP.
    pose proof (i_cov _ _ _ _ _ C) as COV. rewrite SC in COV. cbn in COV.
    destruct (filter_resp_ok idsize SIZE p _ _ U (w_c w) COV) as (K1 & K2 & m & n & EK & COV2 & E2 & SZ & FL & ME); auto.
    { intros H. apply (core_end_K _ _ _ _ _ C). auto. }
    { intros x H. eapply core_K64; eauto. }
    { apply C. }
    rewrite E2 in E. injection E as <-. subst K.
    exists (A ++ K1), K2, U, D. split; [|split; [exact I|]].
    + destruct C; constructor; cbn; rewrite <- ?app_assoc; auto.
      * rewrite map_app in i_all0 |- *. rewrite <- !app_assoc in i_all0 |- *. auto.
      * rewrite map_app in i_off0 |- *. rewrite <- !app_assoc in i_off0 |- *. auto.
      * destruct i_size0, SZ; subst; auto.
      * rewrite missing_app, i_get0, <- !app_assoc. auto.
    + intros FR. destruct (F FR) as (T & R & X & Y & H). exists T, R, X, Y.
      assert (NM : m = c_meta (w_c w)).
      { destruct FL as [->|(x & IX & TX & ->)]; auto. exfalso. apply in_map_iff in IX. destruct IX as ([y b] & EY & IX). cbn in EY. subst y.
        apply filter_In in IX. destruct IX as [IX B]. cbn in B. subst b.
        assert (x = tree). { apply is_tree_all; auto. eapply in_all_A; eauto. right. rewrite map_app, in_app_iff. left. apply map_fst_in. auto. }
        subst x. apply (f_new _ _ _ _ _ _ _ _ _ H). rewrite !in_app_iff. auto. }
      pose proof (stream_full _ _ _ _ _ _ _ _ _ C H) as SF. pose proof (tree_done _ _ _ _ _ _ _ _ _ C (f_ack _ _ _ _ _ _ _ _ _ H)) as TD.
      assert (TT : T = [] \/ T = [tree]) by (destruct (f_ph _ _ _ _ _ _ _ _ _ H); auto).
      destruct H; constructor; cbn; rewrite <- ?app_assoc; auto; try discriminate.
      * rewrite SC in f_R0. auto.
      * intros IE GE SN. rewrite map_app, in_app_iff in IE. destruct IE as [IE|IE].
        { apply (core_end_A _ _ _ _ _ C) in IE. destruct IE as (IE & _). exfalso. apply (covers_ne _ _ _ COV). auto. }
        rewrite (ME IE), app_nil_r in GE.
        destruct (core_end_K _ _ _ _ _ C) as (EU & ES & _). { rewrite map_app, in_app_iff. auto. }
        destruct (PRE FR UP SN GE) as [W|W]; [|congruence]. destruct TT as [-> | ->]; [|destruct TD as (_ & _ & _ & TD & _); congruence].
        intros Q. apply app_eq_nil in Q. destruct Q as [_ Q]. apply app_eq_nil in Q. destruct Q as [_ Q]. apply SF; auto.
      * subst m. destruct f_ph0 as [? Q|? ? Q| | | |]; [apply ph_data|apply ph_turn|eapply ph_send|eapply ph_run|eapply ph_told|]; cbn; eauto; rewrite ?SC in *; eauto.
        -- unfold quiet in *. cbn. rewrite SC in Q. intuition.
        -- unfold quiet in *. cbn. rewrite SC in Q. intuition.
        -- congruence.
  - (* something is stored *)
    unfold data_resp in E. destruct (c_ack (w_c w)) as [|x ra] eqn:EA; [discriminate|]. destruct (behind p) as [pp|] eqn:EB; [|discriminate].
    destruct (is_tree x) eqn:TX.
    + destruct (bytes_eqb _ _) eqn:SM; [|discriminate]. unfold metadata, enable, set_meta in E. cbn in E. destruct (c_up (w_c w)) eqn:UP; [|discriminate].
      injection E as <-.
      assert (C' : core (in_w w (mkC (c_tree (w_c w)) (c_subj (w_c w)) (c_wait (w_c w)) (c_get (w_c w)) (c_ack (w_c w)) (c_send (w_c w)) (c_size (w_c w)) (Some x) (c_changed (w_c w)) true true) r) A K U D).
      { destruct C; constructor; cbn; auto. rewrite SC in i_cov0. auto. }
      exists A, K, U, D. split; [exact C'|split; [exact I|]].
      intros FR. destruct (F FR) as (T & R & X & Y & H).
      pose proof (tree_done _ _ _ _ _ _ _ _ _ C (f_ack _ _ _ _ _ _ _ _ _ H)) as TD.
      pose proof (f_R _ _ _ _ _ _ _ _ _ H) as RR. rewrite SC in RR. cbn in RR. destruct R as [|y R]; [discriminate|]. cbn in RR. injection RR as RP RR.
      assert (TT : T = [] /\ quiet w). { pose proof (f_ph _ _ _ _ _ _ _ _ _ H) as P. destruct P; auto; exfalso; destruct TD as (TD & _); auto; discriminate. }
      destruct TT as [-> QU]. pose proof (f_ack _ _ _ _ _ _ _ _ _ H) as AK. rewrite EA in AK. cbn in AK. injection AK as <- AK.
      assert (x = tree).
      { apply is_tree_all; auto. eapply in_all_A; eauto. left. apply map_fst_in. right. apply in_missing. rewrite (i_get _ _ _ _ _ C), EA. rewrite in_app_iff. cbn. auto. }
      subst x. exists [tree], R, X, Y.
      assert (TD' : R = [] /\ X = [] /\ Y = [] /\ c_get (w_c w) = []).
      { destruct (tree_done _ _ _ _ _ [tree] R X Y C') as (? & ? & ? & ? & _); cbn; auto. rewrite EA, AK. auto. }
      destruct H; constructor; cbn; auto; try discriminate.
      * intros _ Q. tauto.
      * apply ph_turn; cbn; auto. unfold quiet in *. cbn. rewrite SC in QU. cbn in QU. intuition.
    + unfold enable in E. cbn in E. destruct (c_up (w_c w)) eqn:UP; [|discriminate]. injection E as <-.
      exists A, K, U, (D ++ [x]). split; [|split; [exact I|]].
      * destruct C; constructor; cbn; auto.
        -- rewrite SC in i_cov0. auto.
        -- rewrite i_get0, EA, <- !app_assoc. auto.
        -- etransitivity; [exact i_hist0|]. rewrite EA, <- !app_assoc. auto.
        -- intros y. rewrite in_app_iff. cbn. intros [?|[<-|[]]]; auto.
      * intros FR. destruct (F FR) as (T & R & X & Y & H).
        pose proof (tree_done _ _ _ _ _ _ _ _ _ C (f_ack _ _ _ _ _ _ _ _ _ H)) as TD.
        pose proof (f_R _ _ _ _ _ _ _ _ _ H) as RR. rewrite SC in RR. cbn in RR. destruct R as [|y R]; [discriminate|]. cbn in RR. injection RR as RP RR.
        assert (TT : T = [] /\ quiet w). { pose proof (f_ph _ _ _ _ _ _ _ _ _ H) as P. destruct P; auto; exfalso; destruct TD as (TD & _); auto; discriminate. }
        destruct TT as [-> QU]. pose proof (f_ack _ _ _ _ _ _ _ _ _ H) as AK. rewrite EA in AK. cbn in AK. injection AK as <- AK.
        pose proof (stream_full _ _ _ _ _ _ _ _ _ C H) as SF.
        exists [], R, X, Y. subst p. rewrite behind_id in EB. injection EB as <-.
        assert (MN : c_meta (w_c w) = None) by (pose proof (f_ph _ _ _ _ _ _ _ _ _ H) as P; inversion P; auto).
        destruct H; constructor; cbn; auto; try discriminate.
        -- rewrite changes_app. cbn. fold (filed x). rewrite f_chg0, filed_len. fold (StowSpec.key idsize x). destruct (bytes_eqb _ _); [rewrite app_nil_r|]; auto.
        -- intros y Y'. apply f_arc0. cbn in *. rewrite <- app_assoc in Y'. auto.
        -- intros IE GE SN. destruct (core_end_A _ _ _ _ _ C IE) as (_ & EU & ES & _). destruct (PRE FR eq_refl SN GE) as [W|W]; [|congruence].
           intros Q. apply app_eq_nil in Q. destruct Q as [_ Q]. apply app_eq_nil in Q. destruct Q as [_ Q]. apply SF; auto.
        -- apply ph_data; cbn; auto. unfold quiet in *. cbn. rewrite SC in QU. cbn in QU. intuition.
  - (* the end *)
    destruct (c_up (w_c w)) eqn:UP; [|discriminate]. injection E as <-. exists A, K, U, D. split; [|split; [exact I|]].
    + destruct C; constructor; cbn; auto. rewrite SC in i_cov0. auto.
    + intros FR. destruct (F FR) as (T & R & X & Y & H). exists T, R, X, Y. destruct H; constructor; cbn; auto.
      * rewrite SC in f_R0. auto.
      * destruct f_ph0 as [? Q|? ? Q| | | |]; rewrite ?SC in *; cbn in *; try discriminate.
        -- unfold quiet in Q. rewrite SC in Q. destruct Q as (_ & _ & _ & _ & Q & _). discriminate.
        -- unfold quiet in Q. rewrite SC in Q. destruct Q as (_ & _ & _ & _ & Q & _). discriminate.
        -- apply ph_over; cbn; auto. congruence.
Qed.

(* ---- mtree ---- *)
Lemma phase_same w w' D T : phase w D T ->
  c_meta (w_c w') = c_meta (w_c w) -> (c_meta (w_c w) <> None -> c_en (w_c w) = true -> c_en (w_c w') = true) -> c_up (w_c w') = c_up (w_c w) ->
  metas (w_hcs w') = metas (w_hcs w) -> metas (w_cs w') = metas (w_cs w) -> s_meta (w_s w') = s_meta (w_s w) -> s_mrun (w_s w') = s_mrun (w_s w) ->
  rmetas (w_sc w') = rmetas (w_sc w) -> (c_up (w_c w) = true -> s_up (w_s w') = s_up (w_s w)) -> phase w' D T.
Proof.
  intros H E1 E2 E3 E4 E5 E6 E7 E8 E9.
  assert (Q : quiet w -> quiet w').
  { unfold quiet. rewrite E4, E5, E6, E7, E8, E3. intros (? & ? & ? & ? & ? & U & ?). rewrite (E9 U). repeat split; auto. }
  destruct H; [apply ph_data|apply ph_turn|eapply ph_send with l|eapply ph_run with d|eapply ph_told with p|apply ph_over];
    rewrite ?E1, ?E3, ?E4, ?E5, ?E6, ?E7, ?E8; auto; try (rewrite E9; auto; fail).
  apply E2; auto. congruence.
Qed.

Definition c_w (w : world) (c : client) : world := mkW c (w_s w) (w_cs w) (w_sc w) (w_hcs w) (w_hsc w).
Lemma inv_mtree fr w c : inv fr w -> mtree_in tree (w_c w) = Ok c -> inv fr (c_w w c).
Proof.
  intros (A & K & U & D & C & I & F) E.
  assert (S : c = w_c w \/ exists l t, c_tree (w_c w) <> None /\ (exists e, c = mkC t (c_subj (w_c w) ++ l) (c_wait (w_c w)) (c_get (w_c w)) (c_ack (w_c w)) (c_send (w_c w)) (c_size (w_c w)) (c_meta (w_c w)) (c_changed (w_c w)) e (c_up (w_c w)) /\
      (e = true \/ (l = [] /\ e = c_en (w_c w)))) /\ unread (w_c w) = l ++ unread c).
  { unfold mtree_in, enable in E. unfold unread. destruct (c_tree (w_c w)) as [[|l r]|] eqn:ET.
    - right. cbn in E. destruct (c_up (w_c w)) eqn:UP; [|discriminate]. injection E as <-. exists [tree; theend], None. split; [discriminate|]. cbn. eauto.
    - right. exists l, (Some r). split; [discriminate|]. destruct l as [|x l].
      + injection E as <-. cbn. split; auto. eexists. split; eauto.
      + cbn in E. destruct (c_up (w_c w)) eqn:UP; [|discriminate]. injection E as <-. cbn. rewrite app_assoc. split; eauto.
    - left. congruence. }
  destruct S as [->|(l & t & TN & (e & -> & EE) & EU)].
  { destruct w. exists A, K, U, D. auto. }
  assert (NE : ~ In theend (map fst A)).
  { intros H. apply (core_end_A _ _ _ _ _ C) in H. destruct H as (_ & _ & _ & H). unfold unread in H. destruct (c_tree (w_c w)) as [r|]; [|congruence].
    destruct (List.concat r); discriminate. }
  exists A, K, U, D. split; [|split; [exact I|]].
  - destruct C; constructor; cbn; auto. rewrite <- i_all0, EU, <- !app_assoc. auto.
  - intros FR. destruct (F FR) as (T & R & X & Y & H). exists T, R, X, Y. destruct H; constructor; cbn; auto.
    + intros ->. destruct EE as [|[-> EE]]; [discriminate|]. rewrite app_nil_r. apply f_E0. auto.
    + contradiction.
    + eapply phase_same; eauto. cbn. intros _ EN. destruct EE as [|[_ EE]]; congruence.
Qed.

(* ---- the server ---- *)
Definition s_w (w : world) (s : server) (f : list smsg) (cs : list cmsg) : world :=
  mkW (w_c w) s cs (w_sc w ++ f) (w_hcs w) (w_hsc w ++ f).

Lemma take_batch_ok q : forall n, 1 <= n -> Forall (fun d => d <> []) (fst (take_batch n q)) /\
  fst (take_batch n q) ++ snd (take_batch n q) = q /\ len (fst (take_batch n q)) <= n /\
  (forall d r, q = d :: r -> d <> [] -> fst (take_batch n q) <> []).
Proof.
  induction q as [|d q IH]; intros n HN; cbn.
  - rewrite ?len_nil; repeat split; auto; [lia|]. intros d r H. discriminate.
  - destruct d as [|b d].
    + cbn. rewrite ?len_nil; repeat split; auto; [lia|]. intros d r [= <- _]. tauto.
    + destruct (n =? 1) eqn:E1.
      * cbn [fst snd app]. rewrite len_cons, len_nil. repeat split; auto; [constructor; auto; discriminate|discriminate].
      * destruct (IH (n - 1)) as (I1 & I2 & I3 & I4); [lia|]. destruct (take_batch (n - 1) q) as [a r]. cbn [fst snd app] in *. subst q.
        rewrite len_cons. split; [constructor; auto; discriminate|]. split; auto. split; [lia|discriminate].
Qed.

(* a filter is started *)
Lemma inv_start w A K U D : core w A K U D -> s_job (w_s w) = None -> forall s f, start_filter (w_s w) = (s, f) ->
  exists K' U', core (s_w w s f (w_cs w)) A K' U' D /\ idle (s_w w s f (w_cs w)) /\
    forall T R X Y, fresh w A K U D T R X Y -> fresh (s_w w s f (w_cs w)) A K' U' D T R X Y.
Proof.
  intros C J s f E. pose proof (i_U _ _ _ _ _ C) as IU. rewrite J in IU. cbn in IU.
  unfold start_filter in E. destruct (s_queue (w_s w)) as [|d q] eqn:EQ.
  - (* nothing to do *)
    cbn in E. injection E as <- <-. exists K, U. rewrite J. split; [|split; [intros _; auto|]].
    + destruct C. rewrite J in i_cov0, i_rep0, i_U0, i_job0. rewrite EQ in i_U0. cbn in i_cov0, i_rep0, i_U0. rewrite app_nil_r in i_cov0, i_rep0.
      constructor; cbn; rewrite ?app_nil_r; auto.
    + intros T R X Y H. destruct H; constructor; cbn; rewrite ?app_nil_r; auto. eapply phase_same; eauto. cbn. rewrite app_nil_r. auto.
  - destruct d as [|b d].
    + (* the end *)
      inversion IU as [|? x ? U2 S1 S2]; subst. destruct S1 as [[_ ->]|(S1 & _)]; [|congruence].
      destruct (core_end_U _ _ _ _ _ C [] U2 eq_refl) as (-> & ES & EU & NA & NK).
      inversion S2 as [S3|]. symmetry in S3. apply app_eq_nil in S3. destruct S3 as [-> S3]. cbn in E. injection E as <- <-.
      exists (K ++ [(theend, true)]), []. rewrite J. split; [|split; [intros _; auto|]].
      * pose proof (i_cov _ _ _ _ _ C) as COV. rewrite J in COV. cbn in COV. rewrite app_nil_r in COV.
        destruct C. rewrite J in i_cov0, i_rep0, i_job0. cbn in i_cov0, i_rep0. rewrite app_nil_r in i_cov0, i_rep0.
        assert (MK : map fst (K ++ [(theend, true)]) ++ [] = map fst K ++ [theend]) by (rewrite map_app, app_nil_r; auto).
        assert (IN : forall x b, In (x, b) (A ++ K ++ [(theend, true)]) -> In (x, b) (A ++ K) \/ (x, b) = (theend, true)).
        { intros x b. rewrite app_assoc, in_app_iff. cbn. intros [?|[?|[]]]; auto. }
        constructor; cbn [s_w w_c w_s w_cs w_sc w_hcs w_hsc s_job s_queue s_arch]; auto.
        -- rewrite <- i_all0. rewrite map_app, <- !app_assoc. auto.
        -- rewrite MK. auto.
        -- cbn. rewrite app_nil_r, pays_app. apply covers_add_end; auto.
        -- rewrite MK. auto.
        -- rewrite reported_app. cbn. rewrite !app_nil_r, i_rep0. rewrite !missing_app. cbn. rewrite app_nil_r. auto.
        -- intros x IX NX. destruct (IN _ _ IX) as [IX'|[= IX']]; [auto|congruence].
        -- intros IX. destruct (IN _ _ IX) as [IX'|[= IX']]; auto.
        -- intros x IX. destruct (IN _ _ IX) as [IX'|[= IX']]; auto.
        -- intros j. discriminate.
      * intros T R X Y H. destruct H; constructor; cbn; rewrite ?app_nil_r; auto.
        -- intros IX. rewrite app_assoc, in_app_iff in IX. destruct IX as [IX|[IX|[]]]; [auto|]. injection IX as IX. apply tree_not_end. auto.
        -- rewrite rdatas_app. cbn. rewrite app_nil_r. auto.
        -- eapply phase_same; eauto. cbn. rewrite rmetas_app. cbn. rewrite app_nil_r. auto.
    + (* a batch *)
      cbn [skip_empty] in E. cbv beta iota in E. 
      match type of E with context [take_batch 40960 ?l] => destruct (take_batch_ok l 40960) as (B1 & B2 & B3 & B4); [lia|];
        specialize (B4 _ _ eq_refl ltac:(discriminate)); destruct (take_batch 40960 l) as [ids q'] end. cbn [fst snd] in *.
      injection E as <- <-. exists K, U. split; [|split].
      * destruct C. rewrite J in i_cov0, i_rep0, i_U0. rewrite EQ in i_U0. cbn in i_cov0, i_rep0, i_U0. rewrite app_nil_r in i_cov0, i_rep0.
        constructor; cbn; rewrite ?app_nil_r; auto.
        -- rewrite app_assoc, B2. auto.
        -- intros j [= <-]. unfold job_ok. cbn. split; auto. split; [|split; [auto|split; [auto|split; [auto|split; [apply incl_refl|auto]]]]].
           assert (G : Forall2 stands (ids ++ q' ++ offered (w_cs w)) U) by (rewrite app_assoc, B2; exact i_U0).
           apply Forall2_app_inv_l in G. destruct G as (U1 & U2 & G & _). clear - G B1. induction G as [|x y ids U1 S G IH]; constructor.
           ++ inversion B1; subst. destruct S as [[-> _]|(_ & _ & S & _)]; [congruence|auto].
           ++ inversion B1; subst. auto.
      * unfold idle. cbn. discriminate.
      * intros T R X Y H. destruct H; constructor; cbn; rewrite ?app_nil_r; auto. eapply phase_same; eauto. cbn. rewrite app_nil_r. auto.
Qed.

Lemma core_same w w' A K U D : core w A K U D -> w_c w' = w_c w -> s_job (w_s w') = s_job (w_s w) -> s_queue (w_s w') = s_queue (w_s w) ->
  incl (s_arch (w_s w)) (s_arch (w_s w')) -> pays (w_sc w') = pays (w_sc w) -> offered (w_cs w') = offered (w_cs w) ->
  w_hcs w' = w_hcs w -> reported (w_hsc w') = reported (w_hsc w) -> core w' A K U D.
Proof.
  intros C E1 E2 E3 E4 E5 E6 E7 E8. destruct C. constructor; rewrite ?E1, ?E2, ?E3, ?E5, ?E6, ?E7, ?E8; auto.
  - intros j EJ. destruct (i_job0 _ EJ) as (J1 & J2 & J3 & J4). split; auto. split; auto. split; auto. destruct (f_out j); auto.
    destruct J4 as (J4 & J5 & J6 & J7). repeat split; auto. eapply incl_tran; eauto.
  - eapply incl_tran; eauto.
Qed.

Lemma chunk_split d j l l' : Forall (fun b : bytes => b <> []) d -> Forall (fun b : bytes => b <> []) j ->
  d ++ [] :: l = j ++ [] :: l' -> d = j /\ l = l'.
Proof.
  revert j. induction d as [|x d IH]; intros [|y j] Fd Fj E; cbn in E; inversion Fd; inversion Fj; subst; injection E; intros; subst; try tauto.
  destruct (IH j) as [-> ->]; auto.
Qed.

Lemma Y_fine w A K U D T R X Y x : core w A K U D -> fresh w A K U D T R X Y -> In x Y -> fine_data x.
Proof.
  intros C H I. destruct (in_all x) as [->|(_ & _ & F)]; auto.
  - eapply in_all_A; eauto. left. apply in_map_iff. exists (x, false). split; auto. apply in_missing. rewrite (i_get _ _ _ _ _ C), (f_ack _ _ _ _ _ _ _ _ _ H).
    rewrite !in_app_iff. auto 7.
  - exfalso. apply (i_end _ _ _ _ _ C). rewrite in_app_iff. left. apply in_missing. rewrite (i_get _ _ _ _ _ C), (f_ack _ _ _ _ _ _ _ _ _ H).
    rewrite !in_app_iff. auto 7.
Qed.

(* a frame is read *)
Lemma inv_input fr w m r s f : inv fr w -> w_cs w = m :: r -> s_en (w_s w) = true -> input idsize m (w_s w) = Ok (s, f) -> inv fr (s_w w s f r).
Proof.
  intros (A & K & U & D & C & I & F) CS EN E. destruct m as [d|d|d]; cbn [input] in E.
  - (* a question *)
    destruct ((len d =? 0) || ((idsize <=? len d) && (len d <=? 64))) eqn:EL; [|discriminate].
    set (s1 := mkS (s_en (w_s w)) (s_up (w_s w)) (s_queue (w_s w) ++ [d]) (s_job (w_s w)) (s_store (w_s w)) (s_run (w_s w)) (s_meta (w_s w)) (s_mrun (w_s w)) (s_arch (w_s w))) in *.
    set (w1 := mkW (w_c w) s1 r (w_sc w) (w_hcs w) (w_hsc w)).
    assert (C1 : core w1 A K U D).
    { destruct C. constructor; cbn; auto. rewrite CS in i_U0. cbn in i_U0. rewrite <- app_assoc. auto. }
    assert (F1 : forall T R X Y, fresh w A K U D T R X Y -> fresh w1 A K U D T R X Y).
    { intros T R X Y H. destruct H. rewrite CS in f_stream0. constructor; cbn; auto. eapply phase_same; eauto; cbn; try rewrite CS; auto. }
    destruct (s_job (w_s w)) as [j|] eqn:EJ.
    + injection E as <- <-. exists A, K, U, D. replace (s_w w s1 [] r) with w1 by (unfold s_w; rewrite !app_nil_r; auto).
      split; auto. split. { unfold idle. cbn. congruence. }
      intros FR. destruct (F FR) as (T & R & X & Y & H). eauto 6.
    + injection E as E. destruct (inv_start w1 A K U D C1) with (s := s) (f := f) as (K' & U' & C2 & I2 & F2); auto.
      exists A, K', U', D. split; auto. split; auto. intros FR. destruct (F FR) as (T & R & X & Y & H). exists T, R, X, Y. apply F2. auto.
  - (* data *)
    assert (SJ : s_job s = s_job (w_s w) /\ s_queue s = s_queue (w_s w) /\ s_arch s = s_arch (w_s w) /\ s_meta s = s_meta (w_s w) /\ s_mrun s = s_mrun (w_s w) /\ s_up s = s_up (w_s w) /\ f = []).
    { destruct d as [|b d]; [destruct (s_store (w_s w)); [|discriminate]|]; injection E as <- <-; cbn; auto 10. }
    destruct SJ as (S1 & S2 & S3 & S4 & S5 & S6 & ->).
    exists A, K, U, D. split; [|split].
    + eapply core_same; eauto; cbn; rewrite ?app_nil_r; auto; [rewrite S3; apply incl_refl|rewrite CS; auto].
    + unfold idle in *. cbn. rewrite S1, S2. auto.
    + intros FR. destruct (F FR) as (T & R & X & Y & H). pose proof (fun x => Y_fine w A K U D T R X Y x C H) as YF.
      assert (X = []) as ->. { pose proof (f_en _ _ _ _ _ _ _ _ _ H) as HE. rewrite EN in HE. destruct X; [auto|discriminate]. }
      assert (PH : phase (s_w w s [] r) D T). { eapply phase_same; [apply (f_ph _ _ _ _ _ _ _ _ _ H)|..]; cbn; rewrite ?app_nil_r; auto. rewrite CS. auto. }
      pose proof (f_stream _ _ _ _ _ _ _ _ _ H) as ST. rewrite CS in ST. cbn in ST.
      destruct d as [|b d].
      * (* the last *)
        destruct (s_store (w_s w)) as [d|] eqn:ES; [|discriminate]. injection E as <-. cbn [held] in ST. unfold held in ST. rewrite ES in ST.
        destruct (f_store _ _ _ _ _ _ _ _ _ H _ ES) as [DN DF].
        destruct Y as [|y Y]. { exfalso. cbn in ST. destruct d; discriminate. }
        assert (FY : fine_data y) by (apply YF; cbn; auto).
        cbn in ST. unfold chunks at 1 in ST. rewrite <- !app_assoc in ST. cbn in ST. apply chunk_split in ST; [|auto|apply FY]. destruct ST as [-> ST].
        exists T, R, [y], Y. destruct H. constructor; cbn; rewrite ?app_nil_r; auto.
        -- rewrite f_X0. auto.
        -- discriminate.
      * (* more *)
        injection E as <-. exists T, R, [], Y. destruct H. constructor; cbn; rewrite ?app_nil_r; auto.
        -- unfold held in ST. destruct (s_store (w_s w)); rewrite <- ?app_assoc; auto.
        -- intros d' [= <-]. destruct (s_store (w_s w)) as [d0|] eqn:ES; cbn.
           ++ destruct (f_store0 _ eq_refl) as [N1 N2]. split; [destruct d0; discriminate|]. apply Forall_app. split; auto. constructor; auto. discriminate.
           ++ split; [discriminate|]. constructor; auto. discriminate.
  - (* metadata *)
    assert (SJ : s_job s = s_job (w_s w) /\ s_queue s = s_queue (w_s w) /\ s_arch s = s_arch (w_s w) /\ s_store s = s_store (w_s w) /\ s_run s = s_run (w_s w) /\ s_up s = s_up (w_s w) /\ s_en s = s_en (w_s w) /\ f = []).
    { destruct (s_meta (w_s w)); [destruct d as [|b d]|]; injection E as <- <-; cbn; auto 10. }
    destruct SJ as (S1 & S2 & S3 & S4 & S5 & S6 & S7 & ->).
    exists A, K, U, D. split; [|split].
    + eapply core_same; eauto; cbn; rewrite ?app_nil_r; auto; [rewrite S3; apply incl_refl|rewrite CS; auto].
    + unfold idle in *. cbn. rewrite S1, S2. auto.
    + intros FR. destruct (F FR) as (T & R & X & Y & H). exists T, R, X, Y.
      assert (PH : phase (s_w w s [] r) D T).
      { pose proof (f_ph _ _ _ _ _ _ _ _ _ H) as P. inversion P as [Q1 Q2|Q1 Q2 Q3|l Q1 Q2 Q3 Q4 Q5 Q6 Q7 Q8 Q9|? Q1 Q2 Q3|? Q1 Q2 Q3|Q1 Q2 Q3]; try (rewrite CS in Q3; discriminate).
        - destruct Q2 as (_ & Q2 & _). rewrite CS in Q2. discriminate.
        - destruct Q3 as (_ & Q3 & _). rewrite CS in Q3. discriminate.
        - rewrite CS in Q3, Q5. cbn in Q3, Q5.
          destruct (metas r) as [|m' r'] eqn:EM.
          + (* the mark *)
            assert (d = []). { unfold mm in Q5. destruct l as [|? l]; cbn in Q5; injection Q5; intros Q5' Q5''; [destruct (meta_text _); discriminate|]. apply app_inj_tail in Q5'. tauto. }
            subst d. destruct Q4 as [[_ ->]|[Q4 _]]. { unfold mm in Q5. injection Q5. intros. destruct (meta_text _); discriminate. }
            rewrite Q4 in E. injection E as <-. eapply (ph_run _ _ l); cbn; rewrite ?app_nil_r; auto. rewrite Q6. auto.
          + (* not the mark *)
            destruct Q4 as [[Q4 ->]|[Q4 N4]].
            * rewrite Q4 in E. injection E as <-. eapply (ph_send _ _ [d]); cbn; rewrite ?app_nil_r; auto; rewrite ?EM; auto; try discriminate. right. split; auto. discriminate.
            * rewrite Q4 in E. assert (DN : d <> []).
              { intros ->. unfold mm in Q5. destruct l as [|l0 l]; [tauto|]. cbn in Q5. injection Q5. intros Q5' _.
                assert (IX : In [] (meta_text (changes idsize sha D))).
                { clear - Q5'. revert Q5'. generalize (meta_text (changes idsize sha D)). intros t. revert l. induction t as [|a t IH]; intros l Q.
                  - destruct l as [|? l]; cbn in Q; [discriminate|]. injection Q. intros. destruct l; discriminate.
                  - destruct l as [|b l]; cbn in Q; injection Q; intros; subst; cbn; auto. right. eapply IH. eauto. }
                pose proof (pl_meta _ _ _ _ PL (changes idsize sha D)) as PM. rewrite Forall_forall in PM. apply PM in IX. auto. }
              destruct d as [|b d]; [tauto|]. injection E as <-. eapply (ph_send _ _ (l ++ [b :: d])); cbn; rewrite ?app_nil_r; auto; rewrite ?EM; try discriminate.
              -- right. split; auto. destruct l; discriminate.
              -- rewrite <- app_assoc. auto. }
      destruct H. rewrite CS in f_stream0. constructor; cbn [s_w w_c w_s w_cs w_sc w_hcs w_hsc]; rewrite ?app_nil_r, ?S1, ?S2, ?S3, ?S4, ?S5, ?S6, ?S7; auto.
      unfold held in *. rewrite S4. auto.
Qed.

(* the filter looks *)
Definition job_out (j : fjob) (o : list bytes) : fjob := mkF (f_ids j) (f_arch j) (Some o) (f_skip j).
Definition with_job (s : server) (j : option fjob) : server :=
  mkS (s_en s) (s_up s) (s_queue s) j (s_store s) (s_run s) (s_meta s) (s_mrun s) (s_arch s).

Lemma look_cut th ids U1 : Forall2 stands ids U1 -> Forall (fun d => d <> []) ids ->
  map (cut idsize) (filter (fun d => negb (th (cut idsize d))) ids) = map key (missing (map (fun x => (x, th (key x))) U1)).
Proof.
  unfold missing. induction 1 as [|d x ids U1 S H IH]; intros F; [auto|]. inversion F; subst. destruct S as [[-> _]|(_ & _ & _ & S)]; [tauto|].
  cbn. rewrite S. destruct (th (key x)); cbn; auto. rewrite S. f_equal. auto.
Qed.

Lemma inv_look fr w j th : inv fr w -> s_job (w_s w) = Some j -> f_out j = None -> may_say idsize j (s_arch (w_s w)) th -> (fr -> th (key tree) = false) ->
  inv fr (s_w w (with_job (w_s w) (Some (job_out j (filter (fun d => negb (th (cut idsize d))) (f_ids j))))) [] (w_cs w)).
Proof.
  intros (A & K & U & D & C & I & F) EJ EO SAY NEW. set (out := filter _ _).
  destruct (i_job _ _ _ _ _ C _ EJ) as (J1 & J2 & J3 & J4). rewrite EO in J4. destruct J4 as (J4 & J5 & J6 & J7).
  pose proof (i_U _ _ _ _ _ C) as IU. rewrite EJ in IU. cbn [look] in IU. rewrite EO in IU.
  apply forall2_app_inv_r in IU. destruct IU as (U1 & U2 & EU & IU1 & IU2).
  set (B := map (fun x => (x, th (key x))) U1).
  assert (NE : Forall (fun d => d <> []) (f_ids j)).
  { eapply Forall_impl; [|exact J2]. intros d H ->. pose proof SIZE. rewrite len_nil in H. lia. }
  assert (MB : map fst B = U1). { unfold B. rewrite map_map. apply map_id. }
  assert (NX : forall x, In x U1 -> x <> theend /\ exists d, In d (f_ids j) /\ cut idsize d = key x).
  { clear - IU1 NE. induction IU1 as [|d x ids U1 S H IH]; intros y IY; [contradiction|]. inversion NE; subst. destruct S as [[-> _]|(_ & S1 & _ & S2)]; [tauto|].
    destruct IY as [->|IY]; [split; cbn; eauto|]. destruct (IH H3 y IY) as (? & d' & ? & ?). cbn; eauto. }
  assert (NT : forall x, In x U1 -> x <> theend /\ len (j_dig x) = 64 /\ fine_data x).
  { intros x IX. destruct (core_in _ _ _ _ _ C x) as [->|?]; auto.
    - rewrite EU. rewrite !in_app_iff. auto.
    - exfalso. apply NX in IX. tauto. }
  assert (NK : U1 <> [] -> ~ In theend (map fst K)).
  { intros N IK. destruct (core_end_K _ _ _ _ _ C IK) as (E & _). rewrite EU in E. apply app_eq_nil in E. tauto. }
  assert (U1N : U1 <> []). { intros E. apply J1. rewrite E in IU1. inversion IU1. auto. }
  assert (INB : forall x b, In (x, b) B <-> In x U1 /\ b = th (key x)).
  { intros x b. unfold B. rewrite in_map_iff. split; [intros (y & [= -> <-] & ?); auto|intros [? ->]; eauto]. }
  assert (MC : map (cut idsize) out = map key (missing B)) by (apply look_cut; auto).
  assert (LL : len U1 = len (f_ids j)). { unfold len. f_equal. clear - IU1. induction IU1; cbn; auto. }
  assert (NB : forall x, In (x, false) B -> ~ In (key x) (f_arch j)).
  { intros x IX IA. apply INB in IX. destruct IX as [IX TX]. destruct (NX _ IX) as (_ & d & ID & ED). destruct (SAY d ID) as [_ S]. rewrite ED in S. rewrite S in TX; auto. discriminate. }
  assert (VIRT : covers (pays (w_sc w) ++ virt (Some (job_out j out))) (K ++ B) /\ ids_of (virt (Some (job_out j out))) = map key (missing B)).
  { pose proof (i_cov _ _ _ _ _ C) as COV. rewrite EJ in COV. cbn [virt] in COV. rewrite EO, app_nil_r in COV. cbn [virt job_out f_out f_skip].
    destruct out as [|d0 out0] eqn:EOUT.
    - (* all there *)
      assert (TB : Forall there B).
      { apply Forall_forall. intros [x b] IX. destruct b.
        - split; auto. cbn. intros E. apply INB in IX. destruct IX as [IX _]. apply NT in IX. destruct IX as (_ & IX & _). rewrite E, len_nil in IX. lia.
        - apply in_missing in IX. destruct (missing B); [contradiction|discriminate]. }
      rewrite J4. replace (len (f_ids j) =? 0) with false by (symmetry; apply N.eqb_neq; intros E; apply J1; apply len_0; auto). rewrite <- LL. replace (len U1) with (len B) by (unfold B, len; rewrite map_length; auto).
      split.
      + apply covers_add_count; auto. unfold B, len. rewrite map_length. fold (len U1). rewrite LL.
        assert (len (f_ids j) <> 0) by (intros E; apply J1; apply len_0; auto). lia.
      + rewrite <- MC. unfold ids_of. cbn [filter map]. replace (16 <=? len (be_enc 4 (len B))) with false; auto.
    - (* some missing *)
      rewrite MC. split.
      + apply covers_add; auto.
        * intros x. rewrite MB. intros IX. apply NT. auto.
        * intros [e b] x IE TE IX EK. cbn in TE, EK. subst b. apply NB in IX. apply IX. rewrite <- EK. apply J7.
          -- rewrite in_app_iff. auto.
          -- intros ->. apply (NK U1N). apply in_map_iff. exists (theend, true). auto.
        * intros e x IE IX EK. apply INB in IE. apply INB in IX. rewrite EK in IE. destruct IE as [_ IE], IX as [_ IX]. congruence.
      + unfold ids_of. rewrite <- MC. apply filter_every. intros p IP. apply in_map_iff in IP. destruct IP as (d & <- & ID).
        rewrite cut_len; [pose proof SIZE; lia|]. rewrite Forall_forall in J2. apply J2. rewrite <- EOUT in ID. apply filter_In in ID. tauto. }
  destruct VIRT as [V1 V2].
  exists A, (K ++ B), U2, D. split; [|split].
  - pose proof (i_rep _ _ _ _ _ C) as REP. rewrite EJ in REP. cbn [virt] in REP. rewrite EO in REP. cbn in REP. rewrite app_nil_r in REP.
    destruct C. constructor; cbn [s_w with_job w_c w_s w_cs w_sc w_hcs w_hsc s_job s_queue s_arch]; rewrite ?app_nil_r; auto.
    + rewrite <- i_all0, EU, map_app, MB, <- !app_assoc. auto.
    + rewrite i_wait0, EU, map_app, MB, <- !app_assoc. auto.
    + rewrite map_app, MB, <- app_assoc. rewrite <- EU. auto.
    + rewrite REP, V2, app_assoc, (missing_app (A ++ K)), map_app. auto.
    + intros x IX NX'. rewrite app_assoc, in_app_iff in IX. destruct IX as [IX|IX]; [auto|]. apply INB in IX. destruct IX as [IX TX].
      destruct (NX _ IX) as (_ & d & ID & ED). destruct (SAY d ID) as [S _]. rewrite ED in S. auto.
    + rewrite app_assoc, in_app_iff. intros [IX|IX]; [auto|]. apply INB in IX. destruct IX as [IX _]. apply NX in IX. tauto.
    + intros x IX. rewrite app_assoc, in_app_iff in IX. destruct IX as [IX|IX]; [auto|]. intros IA. apply (NB _ IX). auto.
    + intros j' [= <-]. unfold job_ok. cbn [job_out f_ids f_arch f_out]. repeat split; auto. apply Forall_forall. intros d ID. apply filter_In in ID. rewrite Forall_forall in J2. apply J2. tauto.
  - unfold idle. cbn. discriminate.
  - intros FR. destruct (F FR) as (T & R & X & Y & H). exists T, R, X, Y. destruct H. constructor; cbn; rewrite ?app_nil_r; auto.
    + rewrite app_assoc, in_app_iff. intros [IX|IX]; [auto|]. apply INB in IX. destruct IX as [_ IX]. rewrite (NEW FR) in IX. discriminate.
    + eapply phase_same; eauto. cbn. rewrite app_nil_r. auto.
Qed.

(* a line of the filter *)
Lemma inv_line fr w j d r s f : inv fr w -> s_job (w_s w) = Some j -> f_out j = Some (d :: r) -> filter_line idsize j d r (w_s w) = Ok (s, f) ->
  inv fr (s_w w s f (w_cs w)).
Proof.
  intros (A & K & U & D & C & I & F) EJ EO E. unfold filter_line in E. destruct ((16 <=? len d) && (len d <=? 64)); [|discriminate]. injection E as <- <-.
  destruct (i_job _ _ _ _ _ C _ EJ) as (J1 & J2 & J3 & J4). rewrite EO in J4. inversion J4 as [|? ? J5 J6]; subst.
  set (v := virt (Some (mkF (f_ids j) (f_arch j) (Some r) 0))).
  assert (V : virt (s_job (w_s w)) = cut idsize d :: v). { rewrite EJ. cbn [virt]. rewrite EO. unfold v. cbn [virt f_out f_skip]. destruct r; auto. }
  assert (L : 16 <=? len (cut idsize d) = true). { rewrite cut_len; [pose proof SIZE; lia|]. tauto. }
  exists A, K, U, D. split; [|split].
  - destruct C. rewrite V in i_cov0, i_rep0. rewrite EJ in i_U0. cbn [look] in i_U0. rewrite EO in i_U0.
    constructor; cbn [s_w w_c w_s w_cs w_sc w_hcs w_hsc s_job s_queue s_arch look f_out]; fold v; auto.
    + rewrite pays_app. cbn [pays]. rewrite <- app_assoc. auto.
    + rewrite reported_app. cbn [reported]. rewrite L, <- app_assoc. unfold ids_of in *. cbn [filter] in i_rep0. rewrite L in i_rep0. auto.
    + intros j' [= <-]. unfold job_ok. cbn. auto.
  - unfold idle. cbn. discriminate.
  - intros FR. destruct (F FR) as (T & R & X & Y & H). exists T, R, X, Y. destruct H. constructor; cbn; rewrite ?app_nil_r; auto.
    + rewrite rdatas_app. cbn. rewrite app_nil_r. auto.
    + eapply phase_same; eauto. cbn. rewrite rmetas_app. cbn. rewrite app_nil_r. auto.
Qed.

(* the filter has ended *)
Lemma inv_fend fr w j s f : inv fr w -> s_job (w_s w) = Some j -> f_out j = Some [] -> filter_end j (w_s w) = (s, f) -> inv fr (s_w w s f (w_cs w)).
Proof.
  intros (A & K & U & D & C & I & F) EJ EO E.
  set (f1 := if f_skip j =? 0 then [] else [RFilter (be_enc 4 (f_skip j))]) in *.
  set (w1 := s_w w (with_job (w_s w) None) f1 (w_cs w)).
  assert (V : pays f1 = virt (s_job (w_s w)) /\ reported f1 = ids_of (virt (s_job (w_s w))) /\ rdatas f1 = [] /\ rmetas f1 = []).
  { rewrite EJ. cbn [virt]. rewrite EO. unfold f1. destruct (f_skip j =? 0); auto. }
  destruct V as (V1 & V2 & V3 & V4).
  assert (C1 : core w1 A K U D).
  { destruct C. rewrite EJ in i_U0. cbn [look] in i_U0. rewrite EO in i_U0. constructor; cbn [w1 s_w with_job w_c w_s w_cs w_sc w_hcs w_hsc s_job s_queue s_arch look virt]; auto.
    - rewrite pays_app, V1, app_nil_r. auto.
    - rewrite reported_app, V2. unfold ids_of at 2. cbn. rewrite app_nil_r. auto.
    - discriminate. }
  assert (F1 : forall T R X Y, fresh w A K U D T R X Y -> fresh w1 A K U D T R X Y).
  { intros T R X Y H. destruct H. constructor; cbn [w1 s_w with_job w_c w_s w_cs w_sc w_hcs w_hsc s_run s_en s_store s_arch]; auto.
    - rewrite rdatas_app, V3, app_nil_r. auto.
    - eapply phase_same; eauto. cbn. rewrite rmetas_app, V4, app_nil_r. auto. }
  assert (E1 : exists g, start_filter (w_s w1) = (s, g) /\ f = f1 ++ g).
  { unfold filter_end in E. fold f1 in E. cbn [s_queue] in E. cbn [w1 s_w w_s]. unfold with_job. destruct (s_queue (w_s w)) eqn:EQ.
    - injection E as <- <-. exists []. rewrite app_nil_r. split; auto.
    - destruct (start_filter _) as [s' g]. injection E as <- <-. eauto. }
  destruct E1 as (g & E1 & ->). destruct (inv_start w1 A K U D C1) with (s := s) (f := g) as (K' & U' & C2 & I2 & F2); auto.
  replace (s_w w s (f1 ++ g) (w_cs w)) with (s_w w1 s g (w_cs w1)) by (unfold s_w, w1; cbn; rewrite <- !app_assoc; auto).
  exists A, K', U', D. split; auto. split; auto. intros FR. destruct (F FR) as (T & R & X & Y & H). exists T, R, X, Y. apply F2. auto.
Qed.

(* an object is stored *)
Lemma inv_store fr w n d s f : inv fr w -> nth_error (s_run (w_s w)) n = Some d ->
  store_line idsize prefix sha d (firstn n (s_run (w_s w)) ++ skipn (S n) (s_run (w_s w))) (w_s w) = Ok (s, f) -> inv fr (s_w w s f (w_cs w)).
Proof.
  intros (A & K & U & D & C & I & F) EN E. unfold store_line in E. destruct (s_up (w_s w)) eqn:UP; [|discriminate].
  assert (SI : s = mkS true true (s_queue (w_s w)) (s_job (w_s w)) (s_store (w_s w)) (firstn n (s_run (w_s w)) ++ skipn (S n) (s_run (w_s w)))
     (s_meta (w_s w)) (s_mrun (w_s w)) (s_arch (w_s w) ++ [cut idsize (sha (List.concat d))])) by congruence.
  assert (f = [RData (prefix ++ cut idsize (sha (List.concat d)))]) by congruence. subst s f. clear E.
  exists A, K, U, D. split; [|split].
  - eapply core_same; eauto; cbn; auto.
    + apply incl_appl, incl_refl.
    + rewrite pays_app. cbn. apply app_nil_r.
    + rewrite reported_app. cbn. apply app_nil_r.
  - exact I.
  - intros FR. destruct (F FR) as (T & R & X & Y & H).
    pose proof (f_X _ _ _ _ _ _ _ _ _ H) as HX. pose proof (f_one _ _ _ _ _ _ _ _ _ H) as HO. rewrite HX in EN.
    destruct X as [|x [|? X]]; cbn in HO; [destruct n; discriminate| |lia]. destruct n as [|[|n]]; cbn in EN; [|discriminate|discriminate]. injection EN as <-.
    exists T, (R ++ [x]), [], Y. destruct H. constructor; cbn; rewrite ?app_nil_r; auto.
    + rewrite <- app_assoc. auto.
    + rewrite rdatas_app, f_R0, map_app. auto.
    + rewrite HX. auto.
    + intros y IY. rewrite in_app_iff. rewrite !app_assoc in IY. rewrite in_app_iff in IY. destruct IY as [IY|[<-|[]]]; auto.
      * left. apply f_arc0. rewrite app_assoc. auto.
      * right. cbn. auto.
    + rewrite <- app_assoc. auto.
    + rewrite <- app_assoc. auto.
    + eapply phase_same; eauto. cbn. rewrite rmetas_app. cbn. rewrite app_nil_r. auto.
Qed.

(* the metadata are stored *)
Lemma inv_meta fr w d r s f : inv fr w -> s_mrun (w_s w) = d :: r -> meta_line r (w_s w) = Ok (s, f) -> inv fr (s_w w s f (w_cs w)).
Proof.
  intros (A & K & U & D & C & I & F) EN E. unfold meta_line in E. destruct (s_up (w_s w)) eqn:UP; [|discriminate]. injection E as <- <-.
  exists A, K, U, D. split; [|split].
  - eapply core_same; eauto; cbn; auto.
    + apply incl_refl.
    + rewrite pays_app. cbn. apply app_nil_r.
    + rewrite reported_app. cbn. apply app_nil_r.
  - exact I.
  - intros FR. destruct (F FR) as (T & R & X & Y & H). exists T, R, X, Y. pose proof (f_ph _ _ _ _ _ _ _ _ _ H) as P.
    assert (T = [tree] /\ phase (s_w w (mkS true true (s_queue (w_s w)) (s_job (w_s w)) (s_store (w_s w)) (s_run (w_s w)) (s_meta (w_s w)) r (s_arch (w_s w))) [RMeta []] (w_cs w)) D T) as [TT PH].
    { inversion P as [Q1 Q2|Q1 Q2 Q3|l Q1 Q2 Q3 Q4 Q5 Q6 Q7 Q8 Q9|? Q1 Q2 Q3 Q4 Q5 Q6 Q7 Q8|? Q1 Q2 Q3 Q4 Q5|Q1 Q2 Q3 Q4 Q5]; try congruence.
      - destruct Q2 as (_ & _ & _ & Q2 & _). congruence.
      - destruct Q3 as (_ & _ & _ & Q3 & _). congruence.
      - split; auto. eapply (ph_told _ _ []); cbn; auto; [congruence|]. rewrite rmetas_app, Q6. auto. }
    destruct (tree_done _ _ _ _ _ _ _ _ _ C (f_ack _ _ _ _ _ _ _ _ _ H) TT) as (-> & -> & -> & _).
    destruct H. constructor; cbn [s_w w_c w_s w_cs w_sc w_hcs w_hsc]; auto.
    rewrite rdatas_app. cbn. rewrite app_nil_r. auto.
Qed.

(* somebody else stores something; the client has gone *)
Lemma inv_other fr w id : inv fr w -> inv fr (s_w w (mkS (s_en (w_s w)) (s_up (w_s w)) (s_queue (w_s w)) (s_job (w_s w)) (s_store (w_s w)) (s_run (w_s w)) (s_meta (w_s w)) (s_mrun (w_s w)) (s_arch (w_s w) ++ [id])) [] (w_cs w)).
Proof.
  intros (A & K & U & D & C & I & F). exists A, K, U, D. split; [|split].
  - eapply core_same; eauto; cbn; rewrite ?app_nil_r; auto. apply incl_appl, incl_refl.
  - exact I.
  - intros FR. destruct (F FR) as (T & R & X & Y & H). exists T, R, X, Y. destruct H. constructor; cbn; rewrite ?app_nil_r; auto.
    + intros x IX. rewrite in_app_iff. auto.
    + eapply phase_same; eauto. cbn. rewrite app_nil_r. auto.
Qed.
Lemma inv_eof fr w : inv fr w -> c_up (w_c w) = false -> w_cs w = [] ->
  inv fr (s_w w (mkS (s_en (w_s w)) false (s_queue (w_s w)) (s_job (w_s w)) (s_store (w_s w)) (s_run (w_s w)) (s_meta (w_s w)) (s_mrun (w_s w)) (s_arch (w_s w))) [] []).
Proof.
  intros (A & K & U & D & C & I & F) UP CS. exists A, K, U, D. split; [|split].
  - eapply core_same; eauto; cbn; rewrite ?app_nil_r, ?CS; auto. apply incl_refl.
  - exact I.
  - intros FR. destruct (F FR) as (T & R & X & Y & H). exists T, R, X, Y. destruct H. rewrite CS in f_stream0. constructor; cbn; rewrite ?app_nil_r; auto.
    eapply phase_same; eauto; cbn; rewrite ?app_nil_r, ?CS; auto. congruence.
Qed.
End Inv.
