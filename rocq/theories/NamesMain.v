(* Different files have different names, and none is in the place of a directory. *)
From Coq Require Import String.
From Coq Require Import ZifyBool ZifyNat ZifyN.
From Verif Require Import Base BaseLemmas ListLemmas SiloNameModel SiloNameSpec SiloNameProofs DirModel DirSpec DirMain DirEnd NamesModel NamesSpec.
Open Scope string_scope.
Open Scope list_scope.
Open Scope N_scope.
Ltac Zify.zify_post_hook ::= Z.div_mod_to_equations.

Lemma names_dir : forall d cur r, names_in cur (d ++ 47 :: r) = names_in cur (d ++ [47]) ++ names_in [] r.
Proof.
  induction d as [|c d IH]; intros cur r; cbn [app].
  - rewrite !names_slash. destruct cur; auto.
  - cbn [names_in]. destruct (c =? 47); [destruct cur as [|x cur]; [apply IH|cbn [app]; f_equal; apply IH]|apply IH].
Qed.
Lemma resolve_under cwd dirname r : ends_slash dirname -> resolve cwd (dirname ++ r) = resolve cwd dirname ++ names_in [] r.
Proof.
  intros (d & ->). rewrite <- app_assoc. cbn [app]. destruct d as [|c d]; cbn [app resolve].
  - rewrite N.eqb_refl. apply (names_dir [] [] r).
  - destruct (c =? 47); [apply (names_dir (c :: d) [] r)|]. rewrite <- app_assoc. f_equal. apply (names_dir (c :: d) [] r).
Qed.

(* the directories of a silo: how many there are, and then so many *)
Lemma numpart_shape : forall k lvl n, n < 100 ^ N.of_nat k -> exists l r, lvl <= l /\ numpart lvl n = slashed (dec l :: r) /\ Forall name_ok (dec l :: r) /\
  N.of_nat (List.length r) = if 0 <? lvl then l + 1 - lvl else l.
Proof.
  assert (D : forall l, name_ok (dec l)) by (intros l; apply digits_name; [apply dec_nonempty|apply dec_digits]).
  assert (B : forall lvl n, n < 100 -> exists l r, lvl <= l /\ numpart lvl n = slashed (dec l :: r) /\ Forall name_ok (dec l :: r) /\ N.of_nat (List.length r) = if 0 <? lvl then l + 1 - lvl else l).
  { intros lvl n H. rewrite numpart_unfold. replace (100 <=? n) with false by lia. exists lvl. destruct (0 <? lvl) eqn:E.
    - exists [decpad 2 (n mod 100)]. split; [lia|]. split; [unfold slashed; cbn [flat_map]; rewrite app_nil_r; auto|]. split; [repeat constructor; try apply D; apply decpad_name|cbn; lia].
    - exists []. split; [lia|]. split; [unfold slashed; cbn [flat_map]; rewrite !app_nil_r; auto|]. split; [repeat constructor; apply D|cbn; lia]. }
  induction k as [|k IH]; intros lvl n H; [apply B; change (100 ^ N.of_nat 0) with 1 in H; lia|].
  destruct (100 <=? n) eqn:E; [|apply B; lia]. rewrite numpart_unfold, E.
  destruct (IH (lvl + 1) (n / 100)) as (l & r & L & P & F & C). { rewrite Nat2N.inj_succ, N.pow_succ_r' in H. apply N.div_lt_upper_bound; [discriminate|lia]. }
  replace (0 <? lvl + 1) with true in C by lia. exists l. rewrite P. destruct (0 <? lvl) eqn:E2.
  - exists (r ++ [decpad 2 (n mod 100)]). split; [lia|]. split; [change (dec l :: r ++ [decpad 2 (n mod 100)]) with ((dec l :: r) ++ [decpad 2 (n mod 100)]); rewrite slashed_snoc; auto|].
    split; [change (dec l :: r ++ [decpad 2 (n mod 100)]) with ((dec l :: r) ++ [decpad 2 (n mod 100)]); apply Forall_app; split; [auto|]; repeat constructor; apply decpad_name|]. rewrite app_length. cbn [List.length]. lia.
  - exists r. split; [lia|]. split; [apply app_nil_r|]. split; [auto|lia].
Qed.
Lemma silo_shape n : exists l r, numpart 0 n = slashed (dec l :: r) /\ Forall name_ok (dec l :: r) /\ N.of_nat (List.length r) = l.
Proof. destruct (numpart_shape _ 0 n (log_fuel n)) as (l & r & _ & P & F & C). exists l, r. auto. Qed.

Local Opaque dec decpad.
(* what is behind the number *)
Definition tail_of (f : archive_file) : option (N * bytes) :=
  match f with FSilo n => Some (n, []) | FHold n => Some (n, str ".hold") | FRebuilt n => Some (n, str "_") | _ => None end.
Definition word_of (f : archive_file) : bytes :=
  match f with
  | FSorted => str "index.sorted" | FAppendix => str "index.appendix" | FHousekeep => str "index.housekeep" | FIndexHold => str "index.hold"
  | FTmp pid => str "index.tmp." ++ dec pid | FCache => str "_.cache" | _ => []
  end.
Lemma base_word b n t : ok_base b -> ~ In 47 t -> name_ok (fmt_base b n ++ t).
Proof.
  intros (B1 & B2) T. split.
  - unfold fmt_base. intros E. apply app_eq_nil in E. destruct E as [E _]. apply app_eq_nil in E. destruct E as [_ E]. apply app_eq_nil in E. destruct E as [E _]. apply (proj1 (decpad_name (b_width b) n)). auto.
  - unfold fmt_base. intros I. rewrite !in_app_iff in I. destruct I as [[I|[I|I]]|I]; auto. apply (proj2 (decpad_name (b_width b) n)). auto.
Qed.
Lemma where_silo cwd dirname b f n t : ends_slash dirname -> ok_base b -> tail_of f = Some (n, t) ->
  exists l r, numpart 0 n = slashed (dec l :: r) /\ Forall name_ok (dec l :: r) /\ N.of_nat (List.length r) = l /\
  resolve cwd (name_of dirname b f) = resolve cwd dirname ++ (dec l :: r) ++ [fmt_base b n ++ t].
Proof.
  intros E B T. destruct (silo_shape n) as (l & r & P & F & C). exists l, r. split; [auto|]. split; [auto|]. split; [auto|].
  assert (X : name_of dirname b f = dirname ++ slashed (dec l :: r) ++ fmt_base b n ++ t /\ ~ In 47 t).
  { rewrite <- P. destruct f; try discriminate T; injection T as -> <-; cbn [name_of]; unfold rebuilt_filename, Silo_Filename; rewrite ?app_nil_r, <- ?app_assoc; (split; [auto|cbn; intuition discriminate]). }
  destruct X as (-> & T47). rewrite resolve_under by auto. rewrite names_slashed by auto. rewrite names_one; [auto|]. apply base_word; auto.
Qed.
Lemma where_word cwd dirname b f : ends_slash dirname -> tail_of f = None -> resolve cwd (name_of dirname b f) = resolve cwd dirname ++ [word_of f].
Proof.
  intros E T. assert (X : name_of dirname b f = dirname ++ 47 :: word_of f /\ name_ok (word_of f)).
  { destruct f; try discriminate T; cbn [name_of word_of]; unfold idx_filename, cache_filename; (split; [auto|]); (split; [discriminate|]); try (cbn; intuition discriminate).
    rewrite in_app_iff. intros [I|I]; [cbn in I; intuition discriminate|]. apply (slash_dec pid I). }
  destruct X as (-> & W). rewrite resolve_under by auto. rewrite names_slash, names_one; auto.
Qed.
Lemma tails b n t f m t' f' : tail_of f = Some (n, t) -> tail_of f' = Some (m, t') -> fmt_base b n ++ t = fmt_base b m ++ t' -> f = f'.
Proof.
  intros T T' E. unfold fmt_base in E. rewrite <- !app_assoc in E. apply app_inv_head in E.
  assert (C : forall c, is_digit c = false -> count c t = count c t').
  { intros c D. apply (f_equal (count c)) in E. rewrite !count_app, !(count_none c (decpad _ _)) in E by (apply digits_no; auto using decpad_digits). lia. }
  pose proof (C 104 eq_refl) as C1. pose proof (C 95 eq_refl) as C2.
  assert (t = t'). { destruct f; try discriminate T; injection T as <- <-; destruct f'; try discriminate T'; injection T' as <- <-; auto; cbn in C1, C2; discriminate. }
  subst t'. apply app_inv_tail in E. apply decpad_inj in E. subst m.
  destruct f; try discriminate T; injection T as <- <-; destruct f'; try discriminate T'; injection T' as <-; auto; discriminate.
Qed.
Lemma words f f' : tail_of f = None -> tail_of f' = None -> word_of f = word_of f' -> f = f'.
Proof.
  intros T T' E. destruct f; try discriminate T; destruct f'; try discriminate T'; auto; cbn in E; try discriminate E.
  change (str "index.tmp." ++ dec pid = str "index.tmp." ++ dec pid0) in E. apply app_inv_head in E. f_equal. apply dec_inj. auto.
Qed.
Theorem files_apart cwd dirname b f f' : ends_slash dirname -> ok_base b -> resolve cwd (name_of dirname b f) = resolve cwd (name_of dirname b f') -> f = f'.
Proof.
  intros ES B E. destruct (tail_of f) as [(n, t)|] eqn:T; destruct (tail_of f') as [(m, t')|] eqn:T'.
  - destruct (where_silo cwd dirname b f n t ES B T) as (l & r & _ & _ & _ & X). destruct (where_silo cwd dirname b f' m t' ES B T') as (l' & r' & _ & _ & _ & X').
    rewrite X, X' in E. apply app_inv_head in E. apply app_inj_tail in E. destruct E as [_ E]. eapply tails; eauto.
  - exfalso. destruct (where_silo cwd dirname b f n t ES B T) as (l & r & _ & _ & _ & X). rewrite X, (where_word cwd dirname b f' ES T') in E. apply app_inv_head in E. destruct r; discriminate E.
  - exfalso. destruct (where_silo cwd dirname b f' m t' ES B T') as (l & r & _ & _ & _ & X). rewrite X, (where_word cwd dirname b f ES T) in E. apply app_inv_head in E. destruct r; discriminate E.
  - rewrite !where_word in E by auto. apply app_inv_head in E. injection E as E. apply words; auto.
Qed.
Theorem files_inside cwd dirname b f : ends_slash dirname -> ok_base b -> exists c r, resolve cwd (name_of dirname b f) = resolve cwd dirname ++ c :: r.
Proof.
  intros ES B. destruct (tail_of f) as [(n, t)|] eqn:T; [|rewrite where_word by auto; eauto].
  destruct (where_silo cwd dirname b f n t ES B T) as (l & r & _ & _ & _ & ->). eexists. eexists. reflexivity.
Qed.
Lemma above_split {A} (x y a r : list A) : x ++ y = a ++ r -> (exists z, a = x ++ z /\ y = z ++ r) \/ (exists z, x = a ++ z).
Proof. intros E. apply app_eq_app in E. destruct E as (l & [(E1 & E2)|(E1 & E2)]); [right; eauto|left; eauto]. Qed.
Theorem files_no_dir cwd dirname b f m a : ends_slash dirname -> ok_base b -> above a (resolve cwd (Silo_Dirname dirname m)) -> resolve cwd (name_of dirname b f) <> a.
Proof.
  intros ES B (r0 & A) E. unfold Silo_Dirname in A. rewrite resolve_under in A by auto. destruct (silo_shape m) as (l & r & P & F & C).
  rewrite P in A. pose proof (names_slashed (dec l :: r) [] F) as NS. rewrite app_nil_r in NS. cbn [names_in] in NS. rewrite app_nil_r in NS. rewrite NS in A.
  destruct (files_inside cwd dirname b f ES B) as (c0 & r1 & IN). apply above_split in A. destruct A as [(z & -> & Z)|(z & Z)].
  - destruct (tail_of f) as [(n, t)|] eqn:T.
    + destruct (where_silo cwd dirname b f n t ES B T) as (l' & r' & _ & F' & C' & X). rewrite X in E. apply app_inv_head in E. subst z.
      cbn [app] in Z. injection Z as Z1 Z2. apply dec_inj in Z1. subst l'. apply (f_equal (@List.length bytes)) in Z2. rewrite !app_length in Z2. cbn [List.length] in Z2. lia.
    + rewrite where_word in E by auto. apply app_inv_head in E. subst z. cbn [app] in Z. injection Z as Z _. pose proof (dec_digits l) as D. rewrite Z in D.
      destruct f; try discriminate T; cbn in D; inversion_clear D as [|? ? Q _]; discriminate Q.
  - rewrite <- E, IN in Z. apply (f_equal (@List.length bytes)) in Z. rewrite !app_length in Z. cbn [List.length] in Z. lia.
Qed.
Theorem own_files_free cwd dirname b T : ends_slash dirname -> ok_base b -> free T (resolve cwd dirname) ->
  (forall r, T (resolve cwd dirname ++ r) = Some KFile -> exists f, resolve cwd (name_of dirname b f) = resolve cwd dirname ++ r) ->
  forall m, free T (resolve cwd (Silo_Dirname dirname m)).
Proof.
  intros ES B FR OWN m a A E. destruct A as (r0 & A). pose proof A as A'. unfold Silo_Dirname in A'. rewrite resolve_under in A' by auto. apply above_split in A'. destruct A' as [(z & -> & Z)|(z & Z)].
  - destruct (OWN z E) as (f & X). apply (files_no_dir cwd dirname b f m (resolve cwd dirname ++ z) ES B); [exists r0; exact A|exact X].
  - apply (FR a); [exists z; exact Z|exact E].
Qed.
(* for rebuild *)
Lemma rebuilt_apart dirname b n m : ok_base b -> Silo_Filename dirname b m false <> Silo_Filename dirname b n false ++ str "_".
Proof.
  intros Hb E. unfold Silo_Filename in E. rewrite <- !app_assoc in E. apply app_inv_head in E.
  destruct (numpart_end _ 0 n (log_fuel n)) as [x Ex]. destruct (numpart_end _ 0 m (log_fuel m)) as [y Ey]. rewrite Ex, Ey, <- !app_assoc in E. cbn [app] in E. rewrite app_nil_r in E.
  apply last_comp in E; [|rewrite <- (app_nil_r (fmt_base b m)); apply (base_word b m []); auto|apply (base_word b n (str "_")); auto; cbn; intuition discriminate]. destruct E as [_ E].
  pose proof (tails b m [] (FSilo m) n (str "_") (FRebuilt n) eq_refl eq_refl) as X. rewrite app_nil_r in X. specialize (X E). discriminate X.
Qed.
Lemma names_case : ends_slash (str "/aa/") /\ ok_base default_basename /\ resolve [] (name_of (str "/aa/") default_basename (FHold 987)) = [str "aa"; str "1"; str "09"; str "00000987.warc.gz.hold"] /\
  resolve [] (name_of (str "/aa/") default_basename (FTmp 42)) = [str "aa"; str "index.tmp.42"].
Proof. split; [exists (str "/aa"); reflexivity|]. split; [split; cbn; intuition discriminate|]. split; vm_compute; reflexivity. Qed.
