(* Lemmas about ConfigModel.v. *)
From Coq Require Import List NArith ZArith Bool Lia String.
From Coq Require Import ZifyBool ZifyNat ZifyN.
From Verif Require Import Base BaseLemmas ListLemmas SiloNameModel ConfigModel ConfigSpec.
Open Scope string_scope.
Open Scope list_scope.
Open Scope N_scope.

(** * Cutting *)

Lemma cut_at_found c a b : ~ In c a -> cut_at c (a ++ c :: b) = a /\ behind c (a ++ c :: b) = b.
Proof.
  induction a as [|x a IH]; intros H; cbn [app cut_at behind].
  - rewrite N.eqb_refl. auto.
  - destruct (N.eqb_spec x c) as [->|]; [exfalso; apply H; left; auto|].
    destruct IH as [-> ->]; auto. intros X. apply H. right; auto.
Qed.

Lemma cut_at_none c a : ~ In c a -> cut_at c a = a /\ behind c a = [].
Proof.
  induction a as [|x a IH]; intros H; cbn [cut_at behind]; auto.
  destruct (N.eqb_spec x c) as [->|]; [exfalso; apply H; left; auto|].
  destruct IH as [-> ->]; auto. intros X. apply H. right; auto.
Qed.

Lemma cut_at_comment c p q : cut_at c (p ++ c :: q) = cut_at c p.
Proof.
  induction p as [|x p IH]; cbn [app cut_at]; [rewrite N.eqb_refl; auto|].
  destruct (x =? c); auto. rewrite IH; auto.
Qed.

Lemma behind_shorter c p : (length (behind c p) <= length p)%nat.
Proof. induction p as [|x p IH]; cbn [behind]; auto. destruct (x =? c); simpl; lia. Qed.

Lemma behind_lt c p : p <> [] -> (length (behind c p) < length p)%nat.
Proof.
  destruct p as [|x p]; [congruence|]. intros _. cbn [behind]. destruct (x =? c); simpl; [lia|].
  assert (H := behind_shorter c p). lia.
Qed.

(** * The parser as a function of text only *)

Lemma parse_fuel f : forall g cfg p, (length p <= f)%nat -> (length p <= g)%nat -> parse_cfg f cfg p = parse_cfg g cfg p.
Proof.
  induction f as [|f IH]; intros g cfg p Hf Hg.
  - destruct p; [|simpl in Hf; lia]. destruct g; auto.
  - destruct g as [|g]; [destruct p; [auto|simpl in Hg; lia]|]. cbn [parse_cfg]. destruct p as [|x p]; auto.
    destruct (parse_line cfg (cut_at 10 (x :: p))); auto.
    assert (H := behind_lt 10 (x :: p) ltac:(discriminate)). apply IH; lia.
Qed.

Definition parse_from (cfg : config) (p : bytes) : config * option cfg_err := parse_cfg (length p) cfg p.

Lemma parse_nil cfg : parse_from cfg [] = (cfg, None).
Proof. reflexivity. Qed.

Lemma parse_step cfg p : p <> [] -> parse_from cfg p =
  match parse_line cfg (cut_at 10 p) with
  | inl cfg' => parse_from cfg' (behind 10 p)
  | inr e => (cfg, Some e)
  end.
Proof.
  intros H. unfold parse_from at 1. assert (L := behind_lt 10 p H). destruct p as [|x p]; [congruence|].
  cbn [length parse_cfg]. destruct (parse_line cfg (cut_at 10 (x :: p))); auto.
  unfold parse_from. apply parse_fuel; cbn [length] in L; lia.
Qed.

Lemma parse_text cfg l q : ~ In 10 l -> parse_from cfg (l ++ 10 :: q) =
  match parse_line cfg l with
  | inl cfg' => parse_from cfg' q
  | inr e => (cfg, Some e)
  end.
Proof.
  intros H. rewrite parse_step by (destruct l; discriminate). destruct (cut_at_found 10 l q H) as [-> ->]. auto.
Qed.

Lemma parse_last cfg l : ~ In 10 l -> parse_from cfg l =
  match parse_line cfg l with inl cfg' => (cfg', None) | inr e => (cfg, Some e) end.
Proof.
  intros H. destruct l as [|x l].
  - reflexivity.
  - rewrite parse_step by discriminate. destruct (cut_at_none 10 _ H) as [-> ->].
    destruct (parse_line cfg (x :: l)); auto.
Qed.

Lemma split_nl a : ~ In 10 a \/ exists l q, a = l ++ 10 :: q /\ ~ In 10 l.
Proof.
  induction a as [|c a IH]; [left; auto|]. destruct (N.eq_dec c 10) as [->|Hc].
  - right. exists [], a. auto.
  - destruct IH as [H|(l & q & -> & H)]; [left; intros [X|X]; auto|].
    right. exists (c :: l), q. split; auto. intros [X|X]; auto.
Qed.

Lemma parse_app_n n : forall a cfg s, (length a <= n)%nat -> line_start a ->
  parse_from cfg (a ++ s) =
  match parse_from cfg a with
  | (c, None) => parse_from c s
  | (c, Some e) => (c, Some e)
  end.
Proof.
  induction n as [|n IH]; intros a cfg s Hn Ha.
  - destruct a; [auto|simpl in Hn; lia].
  - destruct Ha as [->|(a' & ->)]; [auto|].
    destruct (split_nl (a' ++ [10])) as [H|(l & q & E & H)]; [exfalso; apply H, in_or_app; right; left; auto|].
    rewrite E in *. rewrite <- app_assoc. cbn [app]. rewrite !parse_text by auto.
    destruct (parse_line cfg l) as [c|e]; auto. apply IH.
    + rewrite app_length in Hn. simpl in Hn. lia.
    + destruct q as [|x q]; [left; auto|]. right.
      destruct (exists_last (l := x :: q) ltac:(discriminate)) as (q' & y & Eq). rewrite Eq in *.
      exists q'. change (l ++ 10 :: q' ++ [y]) with (l ++ ((10 :: q') ++ [y])) in E. rewrite app_assoc in E.
      apply app_inj_tail in E. destruct E as [_ <-]. auto.
Qed.
Lemma parse_app a cfg s : line_start a ->
  parse_from cfg (a ++ s) =
  match parse_from cfg a with
  | (c, None) => parse_from c s
  | (c, Some e) => (c, Some e)
  end.
Proof. apply (parse_app_n (length a)). auto. Qed.

Lemma parse_line_comment cfg l c : parse_line cfg (l ++ 35 :: c) = parse_line cfg l.
Proof. unfold parse_line. rewrite cut_at_comment. auto. Qed.

Lemma comment_ignored a l c b : line_start a -> ~ In 10 l -> ~ In 10 c ->
  config_parse (a ++ l ++ 35 :: c ++ 10 :: b) = config_parse (a ++ l ++ 10 :: b).
Proof.
  intros Ha Hl Hc. change config_parse with (parse_from []). rewrite !parse_app by auto.
  destruct (parse_from [] a) as [cf [e|]]; auto.
  replace (l ++ 35 :: c ++ 10 :: b) with ((l ++ 35 :: c) ++ 10 :: b) by (rewrite <- app_assoc; auto).
  rewrite !parse_text; auto; [rewrite parse_line_comment; auto|].
  rewrite in_app_iff. intros [X|[X|X]]; auto. discriminate.
Qed.

Lemma trim_spaces s : spaces s -> trim_end s = [].
Proof. induction 1 as [|c s Hc Hs IH]; auto. cbn [trim_end]. rewrite IH, Hc. auto. Qed.

Lemma trim_app_spaces a s : spaces s -> trim_end (a ++ s) = trim_end a.
Proof.
  intros Hs. induction a as [|x a IH]; cbn [app trim_end]; [apply trim_spaces; auto|]. rewrite IH. auto.
Qed.

Lemma trim_tight a : match rev a with [] => False | c :: _ => is_space c = false end -> trim_end a = a.
Proof.
  induction a as [|x a IH] using rev_ind; intros H; auto. rewrite rev_app_distr in H. cbn in H.
  assert (G : forall a, trim_end (a ++ [x]) = a ++ [x]).
  { clear - H. induction a as [|y a IH]; cbn [app trim_end]; [rewrite H; auto|]. rewrite IH. destruct a; auto. }
  apply G.
Qed.

Lemma spaces_no c s : is_space c = false -> spaces s -> ~ In c s.
Proof. intros H Hs X. unfold spaces in Hs. rewrite Forall_forall in Hs. apply Hs in X. congruence. Qed.

Lemma write_end_nl e : ok_ending e -> ~ In 10 (write_end e).
Proof.
  intros (H1 & H2 & H3) X. unfold write_end in X. apply in_app_iff in X. destruct X as [X|X]; auto.
  destruct (en_comment e); auto. destruct X as [X|X]; auto. discriminate.
Qed.

(* what is left of a line after comment and trailing space are cut *)
Lemma line_body body e : ~ In 35 body -> ok_ending e ->
  trim_end (cut_at 35 (body ++ write_end e)) = trim_end body.
Proof.
  intros H (H1 & H2 & H3). unfold write_end.
  assert (S : ~ In 35 (body ++ en_space e)).
  { rewrite in_app_iff. intros [X|X]; auto. revert X. apply spaces_no; auto. }
  destruct (en_comment e) as [c|].
  - rewrite app_assoc, cut_at_comment. destruct (cut_at_none _ _ S) as [-> _]. apply trim_app_spaces; auto.
  - rewrite app_nil_r. destruct (cut_at_none _ _ S) as [-> _]. apply trim_app_spaces; auto.
Qed.

Lemma blank_line cfg p : empty_line p -> parse_line cfg p = inl cfg.
Proof.
  intros (e & He & ->). unfold parse_line. change (write_end e) with ([] ++ write_end e). rewrite line_body by auto. auto.
Qed.

Lemma empty_nl p : empty_line p -> ~ In 10 p.
Proof. intros (e & He & ->). apply write_end_nl; auto. Qed.

Lemma blank_ignored a p b : line_start a -> empty_line p ->
  config_parse (a ++ p ++ 10 :: b) = config_parse (a ++ b).
Proof.
  intros Ha Hp. change config_parse with (parse_from []). rewrite !parse_app by auto.
  destruct (parse_from [] a) as [cf [e|]]; auto.
  rewrite parse_text by (apply empty_nl; auto). rewrite blank_line; auto.
Qed.

Lemma last_newline p : ~ In 10 p -> forall a, line_start a ->
  config_parse (a ++ p) = config_parse (a ++ p ++ [10]).
Proof.
  intros Hp a Ha. change config_parse with (parse_from []). rewrite !parse_app by auto.
  destruct (parse_from [] a) as [cf [e|]]; auto.
  rewrite parse_text, parse_last by auto. destruct (parse_line cf p); auto.
Qed.

(** * Items *)

Lemma tight_ends n : tight n -> exists c r, n = c :: r /\ is_space c = false.
Proof. intros [H _]. destruct n as [|c r]; [contradiction|]. eauto. Qed.

Lemma item_nl i : ok_item i -> ~ In 10 (write_item i).
Proof.
  destruct i as [e|n e|l n a e]; cbn [ok_item write_item].
  - apply write_end_nl.
  - intros (H1 & [H2 H3] & H4 & H5) X. rewrite !in_app_iff in X. destruct X as [X|[X|X]]; auto.
    + destruct X as [X|[]]. discriminate.
    + revert X. apply write_end_nl; auto.
  - intros (H1 & H2 & H3 & H4 & H5 & H6 & H7 & H8) X. rewrite !in_app_iff in X.
    destruct X as [X|[X|[X|X]]]; auto.
    + rewrite Forall_forall in H5. apply H5 in X. discriminate.
    + destruct a as [[sp x]|]; auto. destruct H7 as (A & B & C & D & [E F]). apply in_app_iff in X. tauto.
    + revert X. apply write_end_nl; auto.
Qed.

Lemma parse_section cfg n e : ok_item (ISection n e) -> ~ In n (map s_name cfg) ->
  parse_line cfg (write_item (ISection n e)) = inl (cfg ++ [mkSc n []]).
Proof.
  intros (H1 & [H2 H3] & H4 & H5) Hn. cbn [write_item]. unfold parse_line.
  replace (n ++ [58] ++ write_end e) with ((n ++ [58]) ++ write_end e) by (rewrite <- app_assoc; auto).
  rewrite line_body; auto; [|rewrite in_app_iff; intros [X|[X|[]]]; [auto|discriminate]].
  rewrite trim_tight by (rewrite rev_app_distr; reflexivity).
  destruct (tight_ends n H1) as (c & r & -> & Hc). cbn [app]. rewrite Hc. cbn [negb].
  change (c :: r ++ [58]) with ((c :: r) ++ 58 :: []).
  destruct (cut_at_found 58 (c :: r) [] H4) as [-> _].
  rewrite bytes_eqb_refl.
  destruct (existsb (fun sc => bytes_eqb (s_name sc) (c :: r)) cfg) eqn:E; auto.
  exfalso. apply existsb_exists in E. destruct E as (sc & Hsc & E). apply bytes_eqb_true in E.
  apply Hn. rewrite <- E. apply in_map; auto.
Qed.

Lemma skip_space_app l x : spaces l -> match x with [] => False | c :: _ => is_space c = false end ->
  skip_space (l ++ x) = x.
Proof.
  induction 1 as [|c l Hc Hl IH]; intros Hx; cbn [app skip_space].
  - destruct x; [contradiction|]. cbn [skip_space]. rewrite Hx. auto.
  - rewrite Hc. auto.
Qed.

Lemma word_app n x : Forall (fun c => is_space c = false) n -> match x with [] => True | c :: _ => is_space c = true end ->
  word (n ++ x) = n /\ skip_word (n ++ x) = x.
Proof.
  induction 1 as [|c n Hc Hn IH]; intros Hx; cbn [app word skip_word].
  - destruct x; auto. cbn [word skip_word]. rewrite Hx. auto.
  - rewrite Hc. destruct (IH Hx) as [-> ->]. auto.
Qed.

Lemma add_entry_last cfg sc e : add_entry (cfg ++ [sc]) e = cfg ++ [mkSc (s_name sc) (s_entries sc ++ [e])].
Proof.
  induction cfg as [|x cfg IH]; auto. cbn [app]. cbn [add_entry]. destruct (cfg ++ [sc]) eqn:E; [destruct cfg; discriminate|].
  rewrite IH. auto.
Qed.

Definition item_entry (n : bytes) (a : option (bytes * bytes)) : entry :=
  mkE n (match a with Some (_, x) => Some x | None => None end).

Lemma parse_entry_line cfg l n a e : ok_item (IEntry l n a e) -> cfg <> [] ->
  parse_line cfg (write_item (IEntry l n a e)) = inl (add_entry cfg (item_entry n a)).
Proof.
  intros (H1 & H2 & H3 & H4 & H5 & H6 & H7 & H8) Hc. cbn [write_item]. unfold parse_line.
  set (x := match a with Some (sp, x) => sp ++ x | None => [] end).
  replace (l ++ n ++ x ++ write_end e) with ((l ++ n ++ x) ++ write_end e) by (rewrite <- !app_assoc; auto).
  assert (Hx : ~ In 35 x).
  { subst x. destruct a as [[sp x]|]; auto. destruct H7 as (A & B & C & D & [E F]). rewrite in_app_iff.
    intros [X|X]; auto. revert X. apply spaces_no; auto. }
  rewrite line_body; auto.
  2:{ rewrite !in_app_iff. intros [X|[X|X]]; auto. revert X. apply spaces_no; auto. }
  assert (Hn : match n with [] => False | c :: _ => is_space c = false end).
  { destruct n; [congruence|]. inversion H5; auto. }
  assert (HL : trim_end (l ++ n ++ x) = l ++ n ++ x).
  { apply trim_tight. rewrite !rev_app_distr. subst x. destruct a as [[sp x]|].
    - destruct H7 as (A & B & C & [D1 D2] & E). rewrite rev_app_distr. destruct (rev x); [contradiction|]. auto.
    - cbn [rev app]. destruct (rev n) as [|y q] eqn:En.
      + apply (f_equal (@rev N)) in En. rewrite rev_involutive in En. cbn in En. congruence.
      + cbn. rewrite Forall_forall in H5. apply H5. apply in_rev. rewrite En. left; auto. }
  rewrite HL. destruct l as [|c l]; [congruence|]. cbn [app].
  assert (Hcs : is_space c = true) by (inversion H1; auto). rewrite Hcs. cbn [negb].
  destruct cfg as [|sc cfg]; [congruence|]. f_equal. f_equal.
  unfold parse_entry, item_entry. change (c :: l ++ n ++ x) with ((c :: l) ++ n ++ x).
  rewrite skip_space_app; auto; [|destruct n; [contradiction|auto]].
  assert (Hx2 : match x with [] => True | c :: _ => is_space c = true end).
  { subst x. destruct a as [[sp x]|]; auto. destruct H7 as (A & B & _). destruct sp; [congruence|]. inversion A; auto. }
  destruct (word_app n x H5 Hx2) as [-> ->]. f_equal. subst x. destruct a as [[sp x]|]; auto.
  destruct H7 as (A & B & C & D & E). destruct (sp ++ x) eqn:Es; [destruct sp; [congruence|discriminate]|].
  rewrite <- Es. rewrite skip_space_app; auto. destruct D; auto.
Qed.

Lemma write_items_cons i l : write_items (i :: l) = write_item i ++ 10 :: write_items l.
Proof. unfold write_items. cbn [map concat]. rewrite <- app_assoc. auto. Qed.

Lemma parse_items : forall l cfg,
  Forall ok_item l -> NoDup (map s_name cfg ++ names l) -> (cfg = [] -> own_entries l = []) ->
  parse_from cfg (write_items l) = (fold_left add_entry (own_entries l) cfg ++ meaning l, None).
Proof.
  induction l as [|i l IH]; intros cfg Hl Hd Hc.
  - cbn. rewrite app_nil_r. auto.
  - inversion Hl as [|? ? Hi Hr]; subst. rewrite write_items_cons, parse_text by (apply item_nl; auto).
    destruct i as [e|n e|le n a e].
    + rewrite blank_line by (exists e; auto). cbn [own_entries meaning]. apply IH; auto.
    + unfold names in Hd. cbn [meaning map s_name] in Hd.
      rewrite parse_section; auto.
      2:{ apply NoDup_remove_2 in Hd. intros X. apply Hd, in_or_app. auto. }
      rewrite IH; auto.
      * cbn [own_entries meaning fold_left].
        assert (G : forall es sc, fold_left add_entry es (cfg ++ [sc]) = cfg ++ [mkSc (s_name sc) (s_entries sc ++ es)]).
        { induction es as [|x es IHe]; intros sc; cbn [fold_left]; [rewrite app_nil_r; destruct sc; auto|].
          rewrite add_entry_last, IHe. cbn [s_name s_entries]. rewrite <- app_assoc. auto. }
        rewrite G. cbn [s_name s_entries app]. rewrite <- app_assoc. auto.
      * rewrite map_app. cbn [map s_name]. rewrite <- app_assoc. auto.
      * intros X. destruct cfg; discriminate.
    + assert (cfg <> []). { intros X. specialize (Hc X). discriminate. }
      rewrite parse_entry_line by auto. cbn [own_entries meaning fold_left]. rewrite IH; auto.
      * unfold names in *. cbn [meaning] in Hd.
        assert (M : map s_name (add_entry cfg (item_entry n a)) = map s_name cfg).
        { destruct (exists_last H) as (c' & sc & ->). rewrite add_entry_last, !map_app. auto. }
        rewrite M. auto.
      * intros X. destruct (exists_last H) as (c' & sc & ->). rewrite add_entry_last in X. destruct c'; discriminate.
Qed.

Lemma config_items l : Forall ok_item l -> NoDup (names l) -> own_entries l = [] ->
  config_parse (write_items l) = (meaning l, None).
Proof.
  intros H1 H2 H3. change config_parse with (parse_from []). rewrite parse_items; auto. rewrite H3. auto.
Qed.

Lemma bad_refused content : Config_Read content = None <->
  exists b, In b content /\ (b = 0 \/ b = 192 \/ b = 193 \/ 244 < b).
Proof.
  unfold Config_Read. destruct (existsb bad_byte content) eqn:E.
  - split; auto. intros _. apply existsb_exists in E. destruct E as (b & Hb & E). exists b. split; auto.
    unfold bad_byte in E. lia.
  - split; [discriminate|]. intros (b & Hb & X). exfalso.
    assert (existsb bad_byte content = true); [|congruence].
    apply existsb_exists. exists b. split; auto. unfold bad_byte. lia.
Qed.

(** * Lookup *)

Lemma find_split {A} (f : A -> bool) l : match find f l with
  | Some x => exists a b, l = a ++ x :: b /\ f x = true /\ Forall (fun y => f y = false) a
  | None => Forall (fun y => f y = false) l
  end.
Proof.
  induction l as [|y l IH]; cbn [find]; [constructor|]. destruct (f y) eqn:E.
  - exists [], l. auto.
  - destruct (find f l) as [x|].
    + destruct IH as (a & b & -> & Hx & Ha). exists (y :: a), b. auto.
    + constructor; auto.
Qed.

Lemma caseeq_iff a b : caseeq a b = true <-> lower a = lower b.
Proof. apply caseeq_true. Qed.
Lemma caseeq_iff_f a b : caseeq a b = false <-> lower a <> lower b.
Proof.
  split; [intros H E; apply caseeq_iff in E; congruence|].
  intros H. destruct (caseeq a b) eqn:E; auto. apply caseeq_iff in E. contradiction.
Qed.

Lemma find_section_first cfg name :
  match find_section cfg name with
  | Some sc => first_section cfg name sc
  | None => forall sc, In sc cfg -> lower (s_name sc) <> lower name
  end.
Proof.
  unfold find_section. assert (H := find_split (fun sc => caseeq (s_name sc) name) cfg).
  destruct (find (fun sc => caseeq (s_name sc) name) cfg) as [sc|].
  - destruct H as (a & b & -> & Hx & Ha). exists a, b. split; auto. split; [apply caseeq_iff; auto|].
    intros x Hin. rewrite Forall_forall in Ha. apply caseeq_iff_f. auto.
  - intros x Hin. rewrite Forall_forall in H. apply caseeq_iff_f. apply H. auto.
Qed.

Lemma first_section_unique cfg name a b : first_section cfg name a -> first_section cfg name b -> a = b.
Proof.
  intros (x & y & E & H1 & H2) (x' & y' & E' & H1' & H2'). subst cfg.
  revert x' E' H2'. induction x as [|c x IH]; intros [|c' x'] E' H2'; cbn [app] in E'.
  - congruence.
  - injection E' as <- E'. exfalso. apply (H2' a); auto. left; auto.
  - injection E' as -> E'. exfalso. apply (H2 b); auto. left; auto.
  - injection E' as <- E'. apply (IH) with (x' := x'); auto; intros z Hz; [apply H2|apply H2']; right; auto.
Qed.

Lemma find_entry cfg sec name :
  match Config_Find cfg sec name with
  | Some a => exists sc e1 e e2, first_section cfg sec sc /\ s_entries sc = e1 ++ e :: e2 /\
      entry_matches name e /\ (forall x, In x e1 -> ~ entry_matches name x) /\ a = e_arg e
  | None => forall sc, first_section cfg sec sc -> forall e, In e (s_entries sc) -> ~ entry_matches name e
  end.
Proof.
  unfold Config_Find. assert (H := find_section_first cfg sec).
  assert (M : forall ent, negb (negb (bytes_eqb (e_name ent) (str "*")) && negb (caseeq name (e_name ent))) = true <-> entry_matches name ent).
  { intros ent. unfold entry_matches. rewrite negb_true_iff, andb_false_iff, !negb_false_iff, bytes_eqb_true, caseeq_iff. tauto. }
  assert (MF : forall ent, negb (negb (bytes_eqb (e_name ent) (str "*")) && negb (caseeq name (e_name ent))) = false -> ~ entry_matches name ent).
  { intros ent E X. apply M in X. congruence. }
  destruct (find_section cfg sec) as [sc|].
  - assert (F := find_split (fun ent => negb (negb (bytes_eqb (e_name ent) (str "*")) && negb (caseeq name (e_name ent)))) (s_entries sc)).
    destruct (find _ (s_entries sc)) as [ent|].
    + destruct F as (a & b & E & Hx & Ha). exists sc, a, ent, b. split; auto. split; auto. split; [apply M; auto|].
      split; auto. intros x Hin. rewrite Forall_forall in Ha. apply MF. apply (Ha x Hin).
    + intros sc' Hs e He. rewrite (first_section_unique _ _ _ _ Hs H) in He. rewrite Forall_forall in F. apply MF, (F e He).
  - intros sc (a & b & -> & E & _). exfalso. apply (H sc); auto. apply in_or_app. right; left; auto.
Qed.

Lemma get_setting cfg name dflt : setting cfg name dflt (cfg_value cfg name dflt).
Proof.
  unfold cfg_value, Config_Get. assert (H := find_section_first cfg name).
  destruct (find_section cfg name) as [sc|].
  2:{ right. split; auto. intros w (sc & e & (a & b & -> & E & _) & _). apply (H sc); auto. apply in_or_app. right; left; auto. }
  assert (U : forall v, one_word cfg name v -> exists e, s_entries sc = [e] /\ e_arg e = None /\ e_name e = v).
  { intros v (sc' & e & F & X). rewrite (first_section_unique _ _ _ _ F H) in X. eauto. }
  destruct (s_entries sc) as [|e [|e2 r]] eqn:L.
  - right. split; auto. intros w W. destruct (U w W) as (x & X & _). discriminate.
  - destruct (e_arg e) as [q|] eqn:Ea.
    + right. split; auto. intros w W. destruct (U w W) as (x & X & Y & _). injection X as <-. congruence.
    + left. exists sc, e. auto.
  - right. split; auto. intros w W. destruct (U w W) as (x & X & _). discriminate.
Qed.
Lemma setting_unique cfg name dflt v w : setting cfg name dflt v -> setting cfg name dflt w -> v = w.
Proof.
  intros [(sc & e & F & L & A & N)|[-> H]] [(sc' & e' & F' & L' & A' & N')|[-> H']]; auto.
  - rewrite (first_section_unique _ _ _ _ F F') in L. congruence.
  - exfalso. apply (H' v). exists sc, e. auto.
  - exfalso. apply (H w). exists sc', e'. auto.
Qed.
Lemma get_value cfg name dflt v : cfg_value cfg name dflt = v <-> setting cfg name dflt v.
Proof.
  split.
  - intros <-. apply get_setting.
  - intros H. eapply setting_unique; [apply get_setting|eauto].
Qed.

Lemma ends_slash_iff p : ends_slash p = true <-> exists q, p = q ++ [47].
Proof.
  unfold ends_slash. destruct (rev p) as [|c r] eqn:E.
  - split; [discriminate|]. intros (q & ->). rewrite rev_app_distr in E. discriminate.
  - assert (P : p = rev r ++ [c]) by (rewrite <- (rev_involutive p), E; auto). split.
    + intros H. apply N.eqb_eq in H. subst. eauto.
    + intros (q & Eq). rewrite P in Eq. apply app_inj_tail in Eq. destruct Eq as [_ ->]. auto.
Qed.

Lemma land3 v : N.land v 3 = v mod 4.
Proof. change 3 with (N.ones 2). rewrite N.land_ones. auto. Qed.

Lemma new_sane strtoul vnum fmt cfg aa : AardWARC_New strtoul vnum fmt cfg = Some aa -> sane_conf fmt aa.
Proof.
  unfold AardWARC_New. destruct (Config_Get cfg (str "WARC-Record-ID") true) as [prefix arg| |]; try discriminate.
  destruct (ends_slash prefix) eqn:E1; try discriminate. cbn [negb].
  destruct (match arg with Some _ => _ | None => _ end) as [ids|] eqn:E2; try discriminate. cbn [opt_bind].
  assert (I : 16 <= ids <= 64).
  { destruct arg as [p|]; [|injection E2 as <-; lia].
    destruct ((strtoul p mod 2 ^ 32 <? 64) || (256 <? strtoul p mod 2 ^ 32)) eqn:B; try discriminate.
    destruct (N.land (strtoul p mod 2 ^ 32) 3 =? 0) eqn:D; try discriminate. rewrite N.shiftr_div_pow2 in E2. injection E2 as <-.
    apply orb_false_iff in B. destruct B as [B1 B2]. apply N.ltb_ge in B1, B2.
    change (2 ^ 2) with 4. generalize dependent (strtoul p mod 2 ^ 32). intros v Hv Hv2 Hv3.
    split; [apply N.div_le_lower_bound; lia|apply N.div_le_upper_bound; lia]. }
  clear E2. destruct (Config_Get cfg (str "silo.directory") false) as [dir d2| |]; try discriminate.
  destruct (ends_slash dir) eqn:E3; try discriminate. cbn [negb].
  destruct (vnum (cfg_value cfg (str "silo.max_size") (str "3.5G"))) as [mx|]; try discriminate. cbn [opt_bind].
  cbv zeta. generalize (cfg_value cfg (str "silo.basename") (str "%08u.warc.gz")). intros base.
  destruct (fmt base) eqn:E4; try discriminate. cbn [negb].
  destruct (existsb (fun c => c =? 47) base) eqn:E5; try discriminate.
  destruct (vnum (cfg_value cfg (str "index.sort_size") (str "10M"))) as [um|]; try discriminate. cbn [opt_bind].
  destruct (N.ltb_spec (N.ldiff um 31) 4096) as [|Hs]; try discriminate. intros [= <-].
  unfold sane_conf. cbn. apply ends_slash_iff in E1, E3. split; auto. split; auto. split; auto. split; auto.
  split; [|split].
  - intros X. assert (existsb (fun c => c =? 47) base = true); [|congruence]. apply existsb_exists. exists 47. auto.
  - change 31 with (N.ones 5). rewrite N.ldiff_ones_r, N.shiftl_mul_pow2. apply N.mod_mul. discriminate.
  - auto.
Qed.

Lemma get_args cfg name n a : Config_Get cfg name true = GetOk n a ->
  exists sc e, first_section cfg name sc /\ s_entries sc = [e] /\ e_name e = n /\ e_arg e = a.
Proof.
  unfold Config_Get. assert (H := find_section_first cfg name). destruct (find_section cfg name) as [sc|]; [|discriminate].
  destruct (s_entries sc) as [|e [|e2 r]] eqn:L; try discriminate. intros X. exists sc, e. split; auto. split; auto.
  destruct (e_arg e); injection X as <- <-; auto.
Qed.
Lemma get_noargs cfg name n a : Config_Get cfg name false = GetOk n a -> one_word cfg name n.
Proof.
  unfold Config_Get. assert (H := find_section_first cfg name). destruct (find_section cfg name) as [sc|]; [|discriminate].
  destruct (s_entries sc) as [|e [|e2 r]] eqn:L; try discriminate. intros X. exists sc, e. split; auto. split; auto.
  destruct (e_arg e); [discriminate|]. injection X as <- <-; auto.
Qed.

Lemma new_settings strtoul vnum fmt cfg aa : AardWARC_New strtoul vnum fmt cfg = Some aa ->
  settings strtoul vnum cfg aa.
Proof.
  intros H. unfold AardWARC_New in H.
  destruct (Config_Get cfg (str "WARC-Record-ID") true) as [prefix arg| |] eqn:G1; try discriminate.
  destruct (ends_slash prefix); try discriminate. cbn [negb] in H.
  destruct (match arg with Some _ => _ | None => _ end) as [ids|] eqn:E2; try discriminate. cbn [opt_bind] in H.
  destruct (Config_Get cfg (str "silo.directory") false) as [dir d2| |] eqn:G2; try discriminate.
  destruct (ends_slash dir); try discriminate. cbn [negb] in H.
  destruct (vnum (cfg_value cfg (str "silo.max_size") (str "3.5G"))) as [mx|] eqn:V1; try discriminate. cbn [opt_bind] in H.
  cbv zeta in H. destruct (fmt _); try discriminate. cbn [negb] in H.
  destruct (existsb _ _); try discriminate.
  destruct (vnum (cfg_value cfg (str "index.sort_size") (str "10M"))) as [um|] eqn:V2; try discriminate. cbn [opt_bind] in H.
  destruct (N.ldiff um 31 <? 4096); try discriminate. injection H as <-.
  unfold settings. cbn [aa_prefix aa_id_size aa_silo_dirname aa_silo_maxsize aa_silo_basename aa_index_sort_size].
  split; [|split; [|split; [|split]]].
  - destruct (get_args _ _ _ _ G1) as (sc & e & F & L & Nm & A). exists sc, e. split; auto. split; auto. split; auto.
    rewrite A. destruct arg as [p|]; [right|left; split; [auto|congruence]].
    exists p. split; auto. destruct ((strtoul p mod 2 ^ 32 <? 64) || (256 <? strtoul p mod 2 ^ 32)); try discriminate.
    destruct (N.land (strtoul p mod 2 ^ 32) 3 =? 0) eqn:D; try discriminate. rewrite N.shiftr_div_pow2 in E2. injection E2 as <-.
    apply N.eqb_eq in D. rewrite land3 in D. change (2 ^ 2) with 4. generalize dependent (strtoul p mod 2 ^ 32).
    intros v Hv. rewrite (N.div_mod v 4) at 1 by discriminate. lia.
  - eapply get_noargs; eauto.
  - eexists. split; [apply get_setting|]. auto.
  - apply get_setting.
  - eexists. eexists. split; [apply get_setting|]. split; [eauto|].
    change 31 with (N.ones 5). rewrite N.ldiff_ones_r, N.shiftl_mul_pow2, N.shiftr_div_pow2. change (2 ^ 5) with 32. lia.
Qed.

Definition w_items : list item :=
  [IBlank (mkEnd [] (Some (str " archive")));
   ISection (str "WARC-Record-ID") (mkEnd [] None);
   IEntry [9] (str "http://x/") (Some ([32; 32], str "128")) (mkEnd [32] (Some (str "bits")));
   IBlank (mkEnd [32; 9] None);
   ISection (str "silo.max_size") (mkEnd [32] (Some (str "limit")));
   IEntry [9; 32] (str "1G") None (mkEnd [] None)].

Ltac item_ok := cbn; unfold ok_ending, spaces, no_hash_nl, tight; cbn;
  repeat match goal with
  | |- _ /\ _ => split
  | |- True => exact I
  | |- Forall _ _ => repeat constructor
  | |- _ <> _ => discriminate
  | |- ~ _ => intros X; repeat (destruct X as [X|X]; [discriminate X|]); exact X
  | |- _ = _ => reflexivity
  end.

Lemma w_items_ok : Forall ok_item w_items.
Proof. unfold w_items. repeat (apply Forall_cons; [item_ok|]). constructor. Qed.

Lemma dropped : exists a b, ok_item (ISection (str "silo.max_size") (mkEnd [] None)) /\ ok_item (IEntry [9] (str "1G") None (mkEnd [] None)) /\
  line_start a /\ exists cfg,
  Config_Read (a ++ write_items [ISection (str "silo.max_size") (mkEnd [] None); IEntry [9] (str "1G") None (mkEnd [] None)] ++ b) = Some cfg /\
  cfg_value cfg (str "silo.max_size") (str "3.5G") = str "3.5G".
Proof.
  exists (str "oops" ++ [10]), []. split; [|split; [|split]].
  - item_ok.
  - item_ok.
  - right. exists (str "oops"). auto.
  - eexists. split; vm_compute; reflexivity.
Qed.

Lemma two_words : exists cfg, Config_Read (str "silo.max_size:" ++ [10; 9] ++ str "1G bytes" ++ [10]) = Some cfg /\
  cfg_value cfg (str "silo.max_size") (str "3.5G") = str "3.5G".
Proof. eexists. split; vm_compute; reflexivity. Qed.
