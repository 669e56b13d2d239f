(* The directories of silos; and what goes wrong. *)
From Coq Require Import String.
From Coq Require Import ZifyBool ZifyNat ZifyN.
From Verif Require Import Base BaseLemmas ListLemmas ConfigModel SiloNameModel SiloNameSpec SiloNameProofs DirModel DirSpec DirMain.
Open Scope string_scope.
Open Scope list_scope.
Open Scope N_scope.
Ltac Zify.zify_post_hook ::= Z.div_mod_to_equations.

Lemma digits_name c : c <> [] -> Forall (fun x => is_digit x = true) c -> name_ok c.
Proof. intros N F. split; [auto|]. intros I. rewrite Forall_forall in F. specialize (F 47 I). discriminate F. Qed.
Lemma decpad_name k n : name_ok (decpad k n).
Proof. apply digits_name; [|apply decpad_digits]. unfold decpad. intros E. apply app_eq_nil in E. destruct E as [_ E]. apply (dec_nonempty _ E). Qed.
Lemma numpart_names : forall f lvl num, exists ns, numpart_f f lvl num = slashed ns /\ Forall name_ok ns.
Proof.
  induction f as [|f IH]; intros lvl num; [exists []; auto|]. cbn [numpart_f].
  assert (A : exists ns, (if 100 <=? num then numpart_f f (lvl + 1) (num / 100) else dec lvl ++ [47]) = slashed ns /\ Forall name_ok ns).
  { destruct (100 <=? num); [apply IH|]. exists [dec lvl]. split; [unfold slashed; cbn [flat_map]; rewrite app_nil_r; auto|]. constructor; [|constructor].
    apply digits_name; [apply dec_nonempty|apply dec_digits]. }
  destruct A as (ns & E & F). unfold bytes, byte in *. rewrite E. destruct (0 <? lvl); [|exists ns; rewrite app_nil_r; auto]. exists (ns ++ [decpad 2 (num mod 100)]). split; [rewrite slashed_snoc; auto|].
  apply Forall_app. split; [auto|]. constructor; [apply decpad_name|constructor].
Qed.
Lemma base_plain b n (h : bool) : ok_base b -> ~ In 47 (fmt_base b n ++ (if h then str ".hold" else [])).
Proof.
  intros (B1 & B2) I. unfold fmt_base in I. rewrite !in_app_iff in I. destruct I as [[I|[I|I]]|I]; auto.
  - destruct (decpad_name (b_width b) n) as (_ & X). auto.
  - destruct h; [|destruct I]. cbn in I. intuition discriminate.
Qed.
Lemma resolve_dir cwd abs cs : Forall name_ok cs -> abs = true \/ cs <> [] -> resolve cwd (written_dir abs cs) = meant cwd abs cs.
Proof.
  intros F H. unfold written_dir, meant. pose proof (names_slashed cs [] F) as E. rewrite app_nil_r in E. cbn [names_in] in E. rewrite app_nil_r in E. destruct abs.
  - change (resolve cwd ([47] ++ slashed cs)) with (names_in [] (47 :: slashed cs)). rewrite names_slash. auto.
  - destruct H as [H|H]; [discriminate|]. destruct cs as [|c cs]; [destruct (H eq_refl)|]. inversion_clear F as [|? ? (N & S) F']. cbn [app]. rewrite <- E at 2.
    unfold slashed. cbn [flat_map]. destruct c as [|a c0]; [destruct (N eq_refl)|]. cbn [app]. unfold resolve. assert (a <> 47) by (intros ->; apply S; left; auto).
    replace (a =? 47) with false by lia. reflexivity.
Qed.
Lemma silo_split abs cs b n (h : bool) : ok_base b -> exists ns base, Forall name_ok ns /\ ~ In 47 base /\
  Silo_Filename (written_dir abs cs) b n h = written_dir abs (cs ++ ns) ++ base /\ Silo_Dirname (written_dir abs cs) n = written_dir abs (cs ++ ns).
Proof.
  intros B. destruct (numpart_names (S (N.to_nat (N.log2 n))) 0 n) as (ns & E & F). exists ns, (fmt_base b n ++ (if h then str ".hold" else [])).
  split; [auto|]. split; [apply base_plain; auto|]. assert (D : written_dir abs (cs ++ ns) = written_dir abs cs ++ numpart 0 n).
  { unfold written_dir, numpart. rewrite E. unfold slashed. rewrite flat_map_app, app_assoc. auto. }
  unfold Silo_Filename, Silo_Dirname. rewrite D, <- !app_assoc. auto.
Qed.
Lemma begun_app T cwd abs cs ns : begun T cwd abs cs -> begun T cwd abs (cs ++ ns).
Proof. intros [H|(c & r & -> & H)]; [left; auto|right]. exists c, (r ++ ns). auto. Qed.
Lemma begun_some T cwd abs cs ns : begun T cwd abs cs -> abs = true \/ cs ++ ns <> [].
Proof. intros [H|(c & r & -> & H)]; [left; auto|right; discriminate]. Qed.

Theorem silo_alone cwd abs cs b n h T : Forall name_ok cs -> ok_base b -> tree_ok T -> begun T cwd abs cs ->
  free T (resolve cwd (Silo_Dirname (written_dir abs cs) n)) ->
  exists m, forall fuel, (m <= fuel)%nat -> exists T', alone cwd (silo_mkparentdir fuel (Silo_Filename (written_dir abs cs) b n h)) T = Some (T', true) /\ tree_ok T' /\
    T' (resolve cwd (Silo_Dirname (written_dir abs cs) n)) = Some KDir /\
    forall l, T' l = T l \/ above l (resolve cwd (Silo_Dirname (written_dir abs cs) n)) /\ T' l = Some KDir.
Proof.
  intros F B W BG FR. destruct (silo_split abs cs b n h B) as (ns & base & FN & NB & E1 & E2). rewrite E1, E2 in *.
  assert (FA : Forall name_ok (cs ++ ns)) by (apply Forall_app; auto). rewrite (resolve_dir cwd abs (cs ++ ns) FA (begun_some _ _ _ _ ns BG)) in *.
  exists (S (List.length (cs ++ ns))). intros fuel Hf. destruct (made_alone cwd abs (cs ++ ns) base T fuel FA NB W FR (begun_app _ _ _ _ ns BG) ltac:(lia)) as (T' & A & W' & I & O).
  exists T'. split; [exact A|]. split; [exact W'|]. split; [apply I, above_refl|]. intros l.
  assert (D : above l (meant cwd abs (cs ++ ns)) \/ ~ above l (meant cwd abs (cs ++ ns))).
  { destruct (list_eq_dec (list_eq_dec N.eq_dec) (firstn (List.length l) (meant cwd abs (cs ++ ns))) l) as [X|X].
    - left. exists (skipn (List.length l) (meant cwd abs (cs ++ ns))). rewrite <- X at 1. symmetry. apply firstn_skipn.
    - right. intros (r & Y). apply X. rewrite Y, firstn_app, Nat.sub_diag, firstn_all. cbn. apply app_nil_r. }
  destruct D as [D|D]; [right; auto|left; auto].
Qed.
Theorem silo_among cwd abs cs b n h T fuel T' ok : Forall name_ok cs -> ok_base b -> tree_ok T -> begun T cwd abs cs ->
  free T (resolve cwd (Silo_Dirname (written_dir abs cs) n)) ->
  among cwd (silo_mkparentdir fuel (Silo_Filename (written_dir abs cs) b n h)) T T' ok ->
  grown T T' /\ (ok = true -> T' (resolve cwd (Silo_Dirname (written_dir abs cs) n)) = Some KDir).
Proof.
  intros F B W BG FR. destruct (silo_split abs cs b n h B) as (ns & base & FN & NB & E1 & E2). rewrite E1, E2 in *.
  assert (FA : Forall name_ok (cs ++ ns)) by (apply Forall_app; auto). rewrite (resolve_dir cwd abs (cs ++ ns) FA (begun_some _ _ _ _ ns BG)) in *.
  intros A. apply (made_among cwd abs (cs ++ ns) base T fuel T' ok FA NB W FR (begun_app _ _ _ _ ns BG) A).
Qed.

(** * What goes wrong *)
Definition root_only : tree := fun l => match l with [] => Some KDir | _ => None end.
Lemma root_ok : tree_ok root_only.
Proof. split; [reflexivity|]. intros [|x l] c H; [reflexivity|]. destruct (H eq_refl). Qed.

(* a name without a slash which is not there *)
Lemma word_never cwd c T : name_ok c -> tree_ok T -> free T (cwd ++ [c]) -> T (cwd ++ [c]) = None -> forall fuel, alone cwd (silo_mkparentdir fuel c) T = None.
Proof.
  intros N W FR TN. assert (S : do_stat T cwd c = SNoent).
  { pose proof (stat_word cwd false T [] c (Forall_nil _) N) as X. unfold written_dir, meant in X. cbn [slashed flat_map app] in X. rewrite X, TN, (not_blocked _ _ FR). auto. }
  induction fuel as [|fuel IH]; [auto|]. cbn [silo_mkparentdir]. rewrite before_none by apply N. cbn [alone]. rewrite S, alone_then, IH. auto.
Qed.
Lemma relative_never cwd c T : name_ok c -> tree_ok T -> T (cwd ++ [c]) = None -> forall r base, Forall name_ok r -> ~ In 47 base -> free T (cwd ++ c :: r) ->
  forall fuel, alone cwd (silo_mkparentdir fuel (written_dir false (c :: r) ++ base)) T = None.
Proof.
  intros N W TN. induction r as [|x r IH] using rev_ind; intros base F B FR fuel; (destruct fuel as [|fuel]; [auto|]).
  - change [c] with ([] ++ [c]). rewrite (step_eq false fuel [] c base (Forall_nil _) N B). cbn [alone]. rewrite stat_word by auto. unfold meant. cbn [app]. rewrite TN, (not_blocked _ _ FR).
    rewrite alone_then. change (written_dir false [] ++ c) with c. rewrite word_never by auto. auto.
  - apply Forall_app in F. destruct F as [F NX]. inversion_clear NX as [|? ? NX' _]. assert (FC : Forall name_ok (c :: r)) by (constructor; auto).
    change (c :: r ++ [x]) with ((c :: r) ++ [x]) in *. rewrite (step_eq false fuel (c :: r) x base FC NX' B). cbn [alone]. rewrite stat_word by auto.
    unfold meant. change (if false then [] else cwd) with cwd. assert (TX : T (cwd ++ (c :: r) ++ [x]) = None).
    { destruct (T (cwd ++ (c :: r) ++ [x])) eqn:E; [|auto]. exfalso. assert (A : above (cwd ++ [c]) (cwd ++ (c :: r) ++ [x])).
      { exists (r ++ [x]). rewrite <- app_assoc. reflexivity. }
      destruct (dir_above T _ W ltac:(rewrite E; discriminate) _ A) as [X|X]; [|congruence]. rewrite <- X in E. congruence. }
    rewrite TX, (not_blocked _ _ FR), alone_then, IH; auto; [apply NX'|]. rewrite app_assoc in FR. eapply free_less; eauto.
Qed.
Lemma relative_refuted : exists aa T, (exists cfg, AardWARC_New (fun _ => 128) (fun _ => Some 1000000) (fun _ => true) cfg = Some aa) /\
  aa_silo_dirname aa = str "archive/" /\ tree_ok T /\ T [str "home"] = Some KDir /\ T [str "home"; str "archive"] = None /\
  forall n h fuel, alone [str "home"] (silo_mkparentdir fuel (Silo_Filename (aa_silo_dirname aa) default_basename n h)) T = None.
Proof.
  eexists. exists (fun l => match l with [] => Some KDir | [x] => if bytes_eqb x (str "home") then Some KDir else None | _ => None end).
  split; [exists [mkSc (str "WARC-Record-ID") [mkE (str "http://x/") (Some (str "128"))]; mkSc (str "silo.directory") [mkE (str "archive/") None]]; vm_compute; reflexivity|].
  split; [reflexivity|]. set (T := fun l : list bytes => _).
  assert (W : tree_ok T).
  { split; [reflexivity|]. intros [|x [|y l]] c H; [reflexivity| |]; cbn in H; destruct H; auto. }
  assert (FR : forall l, free T l).
  { intros l a _ E. unfold T in E. destruct a as [|x [|y a]]; try discriminate E. destruct (bytes_eqb x (str "home")); discriminate E. }
  split; [exact W|]. split; [reflexivity|]. split; [reflexivity|]. intros n h fuel. change (aa_silo_dirname _) with (written_dir false [str "archive"]).
  destruct (silo_split false [str "archive"] default_basename n h) as (ns & base & FN & NB & E1 & _); [split; cbn; intuition discriminate|]. rewrite E1.
  apply (relative_never [str "home"] (str "archive") T); auto. split; [discriminate|cbn; intuition discriminate].
Qed.
(* a doubled slash *)
Lemma double_refuted : match alone [] (silo_mkparentdir 20 (Silo_Filename (str "/a//") default_basename 0 false)) root_only with
  | Some (T1, ok1) => ok1 = false /\
      match alone [] (silo_mkparentdir 20 (Silo_Filename (str "/a//") default_basename 1 false)) T1 with
      | Some (T2, ok2) => ok2 = true /\ T2 [str "a"; str "0"] = Some KDir
      | None => False
      end
  | None => False
  end.
Proof. vm_compute. auto. Qed.
(* a file in the way *)
Definition with_file : tree := fun l => match l with [] => Some KDir | [x] => if bytes_eqb x (str "f") then Some KFile else None | _ => None end.
Lemma blocked_refuted : exists T', tree_ok with_file /\ alone [] (silo_mkparentdir 20 (Silo_Filename (str "/f/") default_basename 0 false)) with_file = Some (T', true) /\ T' = with_file /\
  with_file [str "f"; str "0"] = None.
Proof.
  exists with_file. split.
  - split; [reflexivity|]. intros [|x [|y l]] c H; [reflexivity| |]; cbn in H; destruct H; auto.
  - split; [reflexivity|]. split; reflexivity.
Qed.
(* two at the same time *)
Lemma race_refuted : exists T', among [] (silo_mkparentdir 20 (Silo_Filename (str "/") default_basename 0 false)) root_only T' false /\
  (forall l, T' l = root_only l \/ l = [str "0"] /\ T' l = Some KDir) /\ T' (resolve [] (Silo_Dirname (str "/") 0)) = Some KDir.
Proof.
  set (T' := fun x => if path_eqb x [str "0"] then Some KDir else root_only x). exists T'. split.
  - assert (G : grown root_only T').
    { assert (W' : tree_ok T') by (apply (made_ok root_only [] (str "0") root_ok); reflexivity). split; [exact W'|]. intros l. unfold T'. destruct (path_eqb l [str "0"]) eqn:E; [|auto].
      apply path_eqb_true in E. subst l. auto. }
    change (silo_mkparentdir 20 (Silo_Filename (str "/") default_basename 0 false)) with (silo_mkparentdir 20 (written_dir true ([] ++ [str "0"]) ++ str "00000000.warc.gz")).
    rewrite step_eq; [|constructor|split; [discriminate|cbn; intuition discriminate]|cbn; intuition discriminate].
    apply am_stat. change (do_stat root_only [] (written_dir true [] ++ str "0")) with SNoent. cbn iota.
    change (silo_mkparentdir 19 (written_dir true [] ++ str "0")) with (PDone true). cbn [then_]. eapply am_other; [exact G|]. apply am_failed; [reflexivity|]. apply am_done.
  - split; [|reflexivity]. intros l. unfold T'. destruct (path_eqb l [str "0"]) eqn:E; [|auto]. apply path_eqb_true in E. auto.
Qed.

Lemma silo_case : Forall name_ok [str "var"; str "archive"] /\ ok_base default_basename /\ tree_ok root_only /\ begun root_only [] true [str "var"; str "archive"] /\
  written_dir true [str "var"; str "archive"] = str "/var/archive/" /\ free root_only (resolve [] (Silo_Dirname (str "/var/archive/") 12345)) /\
  resolve [] (Silo_Dirname (str "/var/archive/") 12345) = [str "var"; str "archive"; str "2"; str "01"; str "23"].
Proof.
  split; [repeat constructor; try discriminate; cbn; intuition discriminate|]. split; [split; cbn; intuition discriminate|]. split; [exact root_ok|]. split; [left; auto|]. split; [reflexivity|].
  split; [intros [|x a] _ E; discriminate E|vm_compute; reflexivity].
Qed.
