(* Proofs about silo_mkparentdir. *)
From Coq Require Import String.
From Coq Require Import ZifyBool ZifyNat ZifyN.
From Verif Require Import Base BaseLemmas ListLemmas SiloNameModel SiloNameSpec SiloNameProofs DirModel DirSpec.
Open Scope list_scope.
Open Scope N_scope.
Ltac Zify.zify_post_hook ::= Z.div_mod_to_equations.

(** * Paths *)
Lemma names_word : forall c cur r, ~ In 47 c -> names_in cur (c ++ r) = names_in (cur ++ c) r.
Proof.
  induction c as [|x c IH]; intros cur r H; [rewrite app_nil_r; auto|]. cbn [app]. assert (x <> 47) by (intros ->; apply H; left; auto).
  transitivity (names_in (cur ++ [x]) (c ++ r)).
  - cbn [names_in]. replace (x =? 47) with false by lia. reflexivity.
  - rewrite IH by (intros X; apply H; right; auto). rewrite <- app_assoc. reflexivity.
Qed.
Lemma names_slash cur r : names_in cur (47 :: r) = match cur with [] => names_in [] r | _ => cur :: names_in [] r end.
Proof. reflexivity. Qed.
Lemma names_slashed : forall cs r, Forall name_ok cs -> names_in [] (slashed cs ++ r) = cs ++ names_in [] r.
Proof.
  induction cs as [|c cs IH]; intros r F; [auto|]. inversion_clear F as [|? ? (N & S) F']. unfold slashed. cbn [flat_map]. fold (slashed cs). rewrite <- !app_assoc.
  rewrite names_word by auto. cbn [app]. rewrite names_slash. destruct c as [|y c0]; [destruct (N eq_refl)|]. rewrite IH by auto. reflexivity.
Qed.
Lemma names_one c : name_ok c -> names_in [] c = [c].
Proof. intros (N & S). rewrite <- (app_nil_r c) at 1. rewrite names_word by auto. cbn [app]. destruct c; [destruct (N eq_refl)|reflexivity]. Qed.
Lemma resolve_word cwd abs cs c : Forall name_ok cs -> name_ok c -> resolve cwd (written_dir abs cs ++ c) = meant cwd abs (cs ++ [c]).
Proof.
  intros F (N & S). unfold written_dir, meant. destruct abs.
  - change (resolve cwd (([47] ++ slashed cs) ++ c)) with (names_in [] (47 :: (slashed cs ++ c))). rewrite names_slash, names_slashed, names_one by (auto; split; auto). auto.
  - cbn [app]. assert (E : resolve cwd (slashed cs ++ c) = cwd ++ names_in [] (slashed cs ++ c)).
    { destruct cs as [|x cs].
      - cbn [slashed flat_map app]. destruct c as [|a c]; [destruct (N eq_refl)|]. unfold resolve. assert (a <> 47) by (intros ->; apply S; left; auto).
        cbn [app]. replace (a =? 47) with false by lia. reflexivity.
      - inversion_clear F as [|? ? (N' & S') F']. unfold slashed. cbn [flat_map]. destruct x as [|a x]; [destruct (N' eq_refl)|]. assert (a <> 47) by (intros ->; apply S'; left; auto).
        cbn [app]. unfold resolve. replace (a =? 47) with false by lia. reflexivity. }
    rewrite E, names_slashed, names_one by (auto; split; auto). auto.
Qed.
Lemma before_none : forall p, ~ In 47 p -> before_slash p = None.
Proof.
  induction p as [|c p IH]; intros H; [auto|]. cbn [before_slash]. rewrite IH by (intros X; apply H; right; auto). destruct (c =? 47) eqn:E; [|auto].
  exfalso. apply H. left. lia.
Qed.
Lemma before_last : forall a base, ~ In 47 base -> before_slash (a ++ 47 :: base) = Some a.
Proof.
  induction a as [|c a IH]; intros base H; cbn [app before_slash]; [rewrite before_none by auto; reflexivity|]. rewrite IH by auto. auto.
Qed.
Lemma slashed_snoc cs c : slashed (cs ++ [c]) = slashed cs ++ c ++ [47].
Proof. unfold slashed. rewrite flat_map_app. cbn [flat_map]. rewrite app_nil_r. auto. Qed.
Lemma written_snoc abs cs c : written_dir abs (cs ++ [c]) = (written_dir abs cs ++ c) ++ [47].
Proof. unfold written_dir. rewrite slashed_snoc, !app_assoc. auto. Qed.
Lemma before_written abs cs c base : ~ In 47 base -> before_slash (written_dir abs (cs ++ [c]) ++ base) = Some (written_dir abs cs ++ c).
Proof. intros H. rewrite written_snoc, <- (app_assoc _ [47]). cbn [app]. apply before_last; auto. Qed.

Lemma path_eqb_true : forall a b, path_eqb a b = true <-> a = b.
Proof.
  induction a as [|x a IH]; intros [|y b]; cbn [path_eqb]; try (split; [discriminate|discriminate]); [split; auto|].
  rewrite andb_true_iff, bytes_eqb_true, IH. split; [intros (-> & ->); auto|intros E; injection E; auto].
Qed.

(** * Trees *)
Lemma above_refl l : above l l.
Proof. exists []. rewrite app_nil_r. auto. Qed.
Lemma above_snoc a l c : above a (l ++ [c]) -> above a l \/ a = l ++ [c].
Proof.
  intros (r & E). destruct (list_eq_dec (list_eq_dec N.eq_dec) r []) as [->|NE]; [right; rewrite app_nil_r in E; auto|]. left.
  destruct (exists_last NE) as (r' & z & ->). rewrite app_assoc in E. apply app_inj_tail in E. destruct E as [-> _]. exists r'. auto.
Qed.
Lemma above_app a l r : above a l -> above a (l ++ r).
Proof. intros (x & ->). exists (x ++ r). rewrite app_assoc. auto. Qed.
Lemma not_above l (c : bytes) : ~ above (l ++ [c]) l.
Proof. intros (r & E). apply (f_equal (@List.length _)) in E. rewrite !app_length in E. cbn in E. lia. Qed.
Lemma dir_above T l : tree_ok T -> T l <> None -> forall a, above a l -> a = l \/ T a = Some KDir.
Proof.
  intros (_ & W). induction l as [|c l IH] using rev_ind; intros H a A.
  - destruct A as (r & E). destruct a; [auto|discriminate E].
  - apply above_snoc in A. destruct A as [A|A]; [|auto]. right. specialize (W l c H). destruct (IH ltac:(congruence) a A) as [->|]; auto.
Qed.
Lemma not_blocked T l : free T l -> blocked T l = false.
Proof.
  intros F. unfold blocked. apply not_true_is_false. intros E. apply existsb_exists in E. destruct E as (k & _ & E).
  apply (F (firstn k l)); [exists (skipn k l); symmetry; apply firstn_skipn|]. destruct (T (firstn k l)) as [[]|]; auto; discriminate.
Qed.
Lemma free_less T l r : free T (l ++ r) -> free T l.
Proof. intros F a A. apply F, above_app, A. Qed.
Lemma grown_refl T : tree_ok T -> grown T T.
Proof. intros W. split; auto. Qed.
Lemma grown_trans T T1 T2 : grown T T1 -> grown T1 T2 -> grown T T2.
Proof.
  intros (_ & G1) (W & G2). split; [auto|]. intros l. destruct (G2 l) as [E|(E & E2)]; [rewrite E; apply G1|]. destruct (G1 l) as [E1|(E1 & _)]; right; split; congruence.
Qed.
Lemma grown_free T T' l : grown T T' -> free T l -> free T' l.
Proof. intros (_ & G) F a A E. destruct (G a) as [X|(_ & X)]; [apply (F a A); congruence|congruence]. Qed.
Lemma grown_dir T T' l : grown T T' -> T l = Some KDir -> T' l = Some KDir.
Proof. intros (_ & G) E. destruct (G l) as [X|(X & _)]; congruence. Qed.

Section Dir.
Variable cwd : list bytes.
Variable abs : bool.
Notation loc cs := (meant cwd abs cs).
Notation text cs := (written_dir abs cs).

Lemma text_word cs c : name_ok c -> exists a r, text cs ++ c = a :: r.
Proof. intros (N & _). destruct (text cs ++ c) as [|a r] eqn:E; [|eauto]. apply app_eq_nil in E. destruct E as [_ E]. destruct (N E). Qed.
Lemma loc_snoc cs c : loc (cs ++ [c]) = loc cs ++ [c].
Proof. unfold meant. rewrite app_assoc. auto. Qed.
Lemma stat_word T cs c : Forall name_ok cs -> name_ok c -> do_stat T cwd (text cs ++ c) =
  match T (loc (cs ++ [c])) with
  | Some KDir => SDir
  | Some KFile => if last (text cs ++ c) 0 =? 47 then SNotdir else SOther
  | None => if blocked T (loc (cs ++ [c])) then SNotdir else SNoent
  end.
Proof.
  intros F N. destruct (text_word cs c N) as (a & r & E). unfold do_stat. rewrite E. rewrite <- E, resolve_word by auto. auto.
Qed.
Lemma mkdir_word T cs c : Forall name_ok cs -> name_ok c -> do_mkdir T cwd (text cs ++ c) =
  match T (loc (cs ++ [c])), T (loc cs) with
  | None, Some KDir => Some (fun x => if path_eqb x (loc (cs ++ [c])) then Some KDir else T x)
  | _, _ => None
  end.
Proof.
  intros F N. destruct (text_word cs c N) as (a & r & E). unfold do_mkdir. rewrite E. rewrite <- E, resolve_word by auto. rewrite loc_snoc, removelast_last. auto.
Qed.
Lemma made_ok T l c : tree_ok T -> T l = Some KDir -> tree_ok (fun x => if path_eqb x (l ++ [c]) then Some KDir else T x).
Proof.
  intros (W1 & W2) D. split.
  - destruct (path_eqb [] (l ++ [c])); auto.
  - intros l' c' H. destruct (path_eqb l' (l ++ [c])) eqn:E; [auto|]. destruct (path_eqb (l' ++ [c']) (l ++ [c])) eqn:E2.
    + apply path_eqb_true in E2. apply app_inj_tail in E2. destruct E2 as [-> _]. auto.
    + apply (W2 l' c' H).
Qed.
Lemma step_eq fuel cs c base : Forall name_ok cs -> name_ok c -> ~ In 47 base ->
  silo_mkparentdir (S fuel) (text (cs ++ [c]) ++ base) =
  PStat (text cs ++ c) (fun s => match s with
    | SNoent => then_ (silo_mkparentdir fuel (text cs ++ c)) (fun ok =>
        if ok then PMkdir (text cs ++ c) (fun ok => if ok then PStat (text cs ++ c) (fun s => PDone (is_fine s)) else PDone false) else PDone false)
    | _ => PDone (is_fine s) end).
Proof.
  intros F N B. cbn [silo_mkparentdir]. rewrite before_written by auto. destruct (text_word cs c N) as (a & r & E). rewrite E. reflexivity.
Qed.

(** * Alone *)
Lemma alone_then m k : forall T, alone cwd (then_ m k) T = match alone cwd m T with Some (T', ok) => alone cwd (k ok) T' | None => None end.
Proof.
  induction m as [ok| |p k' IH|p k' IH]; intros T; cbn [then_ alone]; auto. destruct (do_mkdir T cwd p); auto.
Qed.
Theorem made_alone : forall cs base T fuel, Forall name_ok cs -> ~ In 47 base -> tree_ok T -> free T (loc cs) -> begun T cwd abs cs -> (List.length cs < fuel)%nat ->
  exists T', alone cwd (silo_mkparentdir fuel (text cs ++ base)) T = Some (T', true) /\ tree_ok T' /\
    (forall l, above l (loc cs) -> T' l = Some KDir) /\ (forall l, ~ above l (loc cs) -> T' l = T l).
Proof.
  induction cs as [|c cs IH] using rev_ind; intros base T fuel F B W FR BG Hf.
  - destruct BG as [->|(c & r & E & _)]; [|discriminate E]. destruct fuel as [|fuel]; [cbn in Hf; lia|]. cbn [silo_mkparentdir]. unfold written_dir. cbn [slashed flat_map app].
    change (47 :: base) with ([] ++ 47 :: base). rewrite before_last by auto. exists T. split; [reflexivity|]. split; [auto|]. split; [|auto].
    intros l (r & E). destruct l; [apply W|discriminate E].
  - apply Forall_app in F. destruct F as [F N]. inversion_clear N as [|? ? N' _]. rewrite app_length in Hf. cbn [List.length] in Hf.
    destruct fuel as [|fuel]; [lia|]. rewrite (step_eq fuel cs c base F N' B). cbn [alone]. rewrite stat_word by auto.
    destruct (T (loc (cs ++ [c]))) as [[|]|] eqn:TL.
    + exists T. cbn [alone is_fine]. split; [auto|]. split; [auto|]. split; [|auto]. intros l A. destruct (dir_above T _ W ltac:(rewrite TL; discriminate) l A) as [->|]; auto.
    + destruct (FR _ (above_refl _) TL).
    + rewrite (not_blocked _ _ FR), alone_then.
      assert (BG' : begun T cwd abs cs).
      { destruct BG as [BG|(c0 & r & E & D)]; [left; auto|]. destruct cs as [|c1 cs]; [|right; injection E as -> _; eauto]. cbn [app] in E. injection E as -> _.
        unfold meant in TL. destruct abs; [left; auto|]. cbn [app] in TL. congruence. }
      rewrite loc_snoc in FR, TL |- *.
      destruct (IH c T fuel F (proj2 N') W (free_less _ _ _ FR) BG' ltac:(lia)) as (T1 & A1 & W1 & I1 & O1). rewrite A1. cbn [alone]. rewrite mkdir_word, loc_snoc by auto.
      assert (TL1 : T1 (loc cs ++ [c]) = None) by (rewrite O1; [exact TL|apply not_above]). rewrite TL1, (I1 _ (above_refl _)). cbn iota. cbn [alone]. rewrite stat_word by auto.
      rewrite loc_snoc, (proj2 (path_eqb_true _ _) eq_refl). cbn [is_fine]. eexists. split; [reflexivity|]. split; [apply made_ok; [auto|apply I1, above_refl]|]. split.
      * intros l A. apply above_snoc in A. destruct A as [A| ->]; [|rewrite (proj2 (path_eqb_true _ _) eq_refl); auto]. destruct (path_eqb l _); auto.
      * intros l A. destruct (path_eqb l (loc cs ++ [c])) eqn:E; [apply path_eqb_true in E; subst l; destruct (A (above_refl _))|]. apply O1. intros A'. apply A, above_app, A'.
Qed.

(** * Among others *)
Lemma among_then m k : forall T T2 ok, among cwd (then_ m k) T T2 ok -> exists T1 r, among cwd m T T1 r /\ among cwd (k r) T1 T2 ok.
Proof.
  intros T T2 ok H. remember (then_ m k) as x eqn:X. revert m X. induction H as [ok T|m0 T T1 T2 ok G H IH|p k0 T T2 ok H IH|p k0 T T1 T2 ok M H IH|p k0 T T2 ok M H IH]; intros m X.
  - destruct m as [r| |p k'|p k']; cbn [then_] in X; try discriminate X. exists T, r. split; [constructor|]. rewrite <- X. constructor.
  - destruct (IH m X) as (Ta & r & A & A'). exists Ta, r. split; [eapply am_other; eauto|auto].
  - destruct m as [r| |p' k'|p' k']; cbn [then_] in X; try discriminate X.
    + exists T, r. split; [constructor|]. rewrite <- X. apply am_stat. exact H.
    + injection X as -> ->. destruct (IH (k' (do_stat T cwd p')) eq_refl) as (Ta & r & A & A'). exists Ta, r. split; [apply am_stat; auto|auto].
  - destruct m as [r| |p' k'|p' k']; cbn [then_] in X; try discriminate X.
    + exists T, r. split; [constructor|]. rewrite <- X. eapply am_made; eauto.
    + injection X as -> ->. destruct (IH (k' true) eq_refl) as (Ta & r & A & A'). exists Ta, r. split; [eapply am_made; eauto|auto].
  - destruct m as [r| |p' k'|p' k']; cbn [then_] in X; try discriminate X.
    + exists T, r. split; [constructor|]. rewrite <- X. apply am_failed; auto.
    + injection X as -> ->. destruct (IH (k' false) eq_refl) as (Ta & r & A & A'). exists Ta, r. split; [apply am_failed; auto|auto].
Qed.
Lemma among_done r T T2 ok : tree_ok T -> among cwd (PDone r) T T2 ok -> r = ok /\ grown T T2.
Proof.
  intros W H. remember (PDone r) as x eqn:X. revert W. induction H; intros W; try discriminate X.
  - injection X as ->. split; [auto|apply grown_refl; auto].
  - destruct (IHamong X (proj1 H)) as (-> & G). split; [auto|]. eapply grown_trans; eauto.
Qed.
Lemma among_stat p k T T2 ok : tree_ok T -> among cwd (PStat p k) T T2 ok -> exists T1, grown T T1 /\ among cwd (k (do_stat T1 cwd p)) T1 T2 ok.
Proof.
  intros W H. remember (PStat p k) as x eqn:X. revert W. induction H; intros W; try discriminate X.
  - destruct (IHamong X (proj1 H)) as (Ta & G & A). exists Ta. split; [eapply grown_trans; eauto|auto].
  - injection X as -> ->. exists T. split; [apply grown_refl; auto|auto].
Qed.
Lemma among_mkdir p k T T2 ok : tree_ok T -> among cwd (PMkdir p k) T T2 ok -> exists T1, grown T T1 /\
  match do_mkdir T1 cwd p with Some T' => among cwd (k true) T' T2 ok | None => among cwd (k false) T1 T2 ok end.
Proof.
  intros W H. remember (PMkdir p k) as x eqn:X. revert W. induction H; intros W; try discriminate X.
  - destruct (IHamong X (proj1 H)) as (Ta & G & A). exists Ta. split; [eapply grown_trans; eauto|auto].
  - injection X as -> ->. exists T. split; [apply grown_refl; auto|rewrite H; auto].
  - injection X as -> ->. exists T. split; [apply grown_refl; auto|rewrite H; auto].
Qed.
Lemma among_never T T2 ok : ~ among cwd PNever T T2 ok.
Proof. intros H. remember PNever as x eqn:X. induction H; try discriminate X. auto. Qed.

Theorem made_among : forall cs base T fuel T2 ok, Forall name_ok cs -> ~ In 47 base -> tree_ok T -> free T (loc cs) -> begun T cwd abs cs ->
  among cwd (silo_mkparentdir fuel (text cs ++ base)) T T2 ok -> grown T T2 /\ (ok = true -> T2 (loc cs) = Some KDir).
Proof.
  induction cs as [|c cs IH] using rev_ind; intros base T fuel T2 ok F B W FR BG H.
  - destruct BG as [->|(c & r & E & _)]; [|discriminate E]. destruct fuel as [|fuel]; [destruct (among_never _ _ _ H)|]. cbn [silo_mkparentdir] in H. unfold written_dir in H. cbn [slashed flat_map app] in H.
    change (47 :: base) with ([] ++ 47 :: base) in H. rewrite before_last in H by auto. apply among_done in H; auto. destruct H as (_ & G). split; [auto|]. intros _. apply (proj1 (proj1 G)).
  - apply Forall_app in F. destruct F as [F N]. inversion_clear N as [|? ? N' _].
    destruct fuel as [|fuel]; [destruct (among_never _ _ _ H)|]. rewrite (step_eq fuel cs c base F N' B) in H.
    apply among_stat in H; auto. destruct H as (T1 & G1 & H). rewrite stat_word in H by auto. pose proof (grown_free _ _ _ G1 FR) as FR1.
    destruct (T1 (loc (cs ++ [c]))) as [[|]|] eqn:TL.
    + apply among_done in H; [|apply G1]. destruct H as (E & G2). split; [eapply grown_trans; eauto|]. intros _. eapply grown_dir; eauto.
    + destruct (FR1 _ (above_refl _) TL).
    + rewrite (not_blocked _ _ FR1) in H. apply among_then in H. destruct H as (T3 & r & H1 & H2).
      assert (BG' : begun T1 cwd abs cs).
      { destruct BG as [BG|(c0 & r0 & E & D)]; [left; auto|]. destruct cs as [|c1 cs].
        - cbn [app] in E. injection E as -> _. unfold meant in TL. destruct abs; [left; auto|]. cbn [app] in TL. rewrite (grown_dir _ _ _ G1 D) in TL. discriminate.
        - right. injection E as -> _. exists c0, cs. split; [auto|]. eapply grown_dir; eauto. }
      assert (FR1' : free T1 (loc cs)) by (rewrite loc_snoc in FR1; eapply free_less; eauto).
      destruct (IH c T1 fuel T3 r F (proj2 N') (proj1 G1) FR1' BG' H1) as (G3 & D3). destruct r.
      * apply among_mkdir in H2; [|apply G3]. destruct H2 as (T4 & G4 & H2). rewrite mkdir_word in H2 by auto.
        assert (GT4 : grown T T4) by (eapply grown_trans; [eauto|eapply grown_trans; eauto]).
        destruct (T4 (loc (cs ++ [c]))) eqn:T4L; [apply among_done in H2; [|apply G4]; destruct H2 as (<- & G5); split; [eapply grown_trans; eauto|discriminate]|].
        rewrite (grown_dir _ _ _ G4 (D3 eq_refl)) in H2. cbn iota in H2.
        set (T5 := fun x => if path_eqb x (loc (cs ++ [c])) then Some KDir else T4 x) in H2.
        assert (W5 : tree_ok T5). { unfold T5. rewrite loc_snoc. apply made_ok; [apply G4|]. apply (grown_dir _ _ _ G4 (D3 eq_refl)). }
        assert (G5 : grown T4 T5). { split; [auto|]. intros l. unfold T5. destruct (path_eqb l (loc (cs ++ [c]))) eqn:E; [|auto]. apply path_eqb_true in E. subst l. right. auto. }
        apply among_stat in H2; auto. destruct H2 as (T6 & G6 & H2). apply among_done in H2; [|apply G6]. destruct H2 as (_ & G7).
        assert (G57 : grown T5 T2) by (eapply grown_trans; eauto). split; [eapply grown_trans; [exact GT4|eapply grown_trans; eauto]|]. intros _.
        eapply grown_dir; [exact G57|]. unfold T5. rewrite (proj2 (path_eqb_true _ _) eq_refl). auto.
      * apply among_done in H2; [|apply G3]. destruct H2 as (<- & G4). split; [|discriminate]. eapply grown_trans; [exact G1|eapply grown_trans; eauto].
Qed.
End Dir.
