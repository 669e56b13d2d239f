(* What PMtree.v states *)
From Coq Require Import String Lia ZifyBool ZifyNat ZifyN.
From Verif Require Import Base BaseLemmas ListLemmas MtreeModel MtreeSpec MtreeProofs StowModel StowSpec StowMain.
Open Scope list_scope.
Open Scope N_scope.

Definition dflt (b : bool) : bytes := if b then dir else file.
Lemma dflt_ok b : (dflt b = dir \/ dflt b = file) /\ isdir (dflt b) = b.
Proof. destruct b; cbn; auto. Qed.

Lemma run_no_fuel ls : forall s, run_lines ls s <> Fuel.
Proof.
  induction ls as [|x ls IH]; intros s; cbn [run_lines]; [discriminate|].
  assert (mtree_interpret x s <> Fuel) as NF.
  { unfold mtree_interpret. destruct (words (skip_space x)) as [|[|c w] r]; try discriminate.
    destruct (bytes_eqb _ _); [discriminate|]. destruct (bytes_eqb _ _); [now destruct (m_pwd s)|].
    destruct (entry_words r (m_dir s) None) as [[[] g]|]; [|destruct (m_pwd s), g; discriminate|discriminate].
    destruct (_ <? _); discriminate. }
  destruct (mtree_interpret x s) as [[s1 e]| | |]; try easy. cbn [bind].
  specialize (IH s1). destruct (run_lines ls s1) as [[s2 l]| | |]; easy.
Qed.

Lemma cuts_lemma text ls d cut cut' : lines_of 8191 text ls ->
  (exists r r', mtree_all cut text d = Ok (r, text) /\ mtree_all cut' text d = Ok (r', text) /\ concat r = concat r') \/
  mtree_all cut text d = Abort /\ mtree_all cut' text d = Abort \/
  mtree_all cut text d = UB /\ mtree_all cut' text d = UB.
Proof.
  intros H. pose proof (all_lines cut _ _ d H) as P. pose proof (all_lines cut' _ _ d H) as P'.
  destruct (run_lines ls (mkMt [] d [])) as [[s l]| | |] eqn:E.
  - destruct P as (r & E1 & C1). destruct P' as (r' & E2 & C2). left. exists r, r'. now rewrite C1, C2.
  - auto.
  - auto.
  - now apply run_no_fuel in E.
Qed.

Lemma listing_lemma cut b n text : (exists name l, n = NDir name l) -> listing 8191 (dflt b) n text -> short 4095 [] n ->
  exists reads, mtree_all cut text b = Ok (reads, text) /\ concat reads = files [] n.
Proof.
  intros (name & l & ->) (ls & lws & d' & L & F & S) SH. pose proof (all_lines cut _ _ b L) as P.
  destruct (dflt_ok b) as [D1 D2]. destruct (run_shows _ _ _ _ S D1) as [_ R].
  assert (run_lines ls (st [] (dflt b)) = Ok (st [] d', flat_map (files (rev [])) [NDir name l])) as E.
  { apply R; [exact F| |exact (conj SH I)]. intros _. constructor; [eauto|constructor]. }
  unfold st in E. rewrite D2 in E. cbn [rev pathtext flat_map pwds] in E. rewrite E in P.
  rewrite app_nil_r in P. exact P.
Qed.

(* ---------------- too deep ---------------- *)

Section NodeInd.
Variable P : node -> Prop.
Hypothesis HD : forall name l, Forall P l -> P (NDir name l).
Hypothesis HF : forall name dig, P (NFile name dig).
Hypothesis HO : forall name, P (NOther name).
Fixpoint node_all (n : node) : P n :=
  match n with
  | NDir name l => HD name l ((fix go (l : list node) : Forall P l := match l with [] => Forall_nil _ | x :: r => Forall_cons _ (node_all x) (go r) end) l)
  | NFile name dig => HF name dig
  | NOther name => HO name
  end.
End NodeInd.

Definition short_list lim path l := fold_right (fun x P => short lim path x /\ P) True l.
Lemma short_dec lim n : forall path, short lim path n \/ ~ short lim path n.
Proof.
  induction n as [name l F| |] using node_all; intros path; [|left; exact I|left; exact I].
  cbn [short]. set (q := path ++ [name]). clearbody q.
  assert (short_list lim q l \/ ~ short_list lim q l) as D.
  { induction F as [|x l X F IH]; [left; exact I|]. cbn. specialize (X q). unfold short_list in IH. tauto. }
  unfold short_list in D. destruct (N.lt_decidable (len (slashed q)) lim); tauto.
Qed.
Lemma short_list_dec lim path l : short_list lim path l \/ ~ short_list lim path l.
Proof. induction l as [|x l IH]; [left; exact I|]. cbn. pose proof (short_dec lim x path). unfold short_list in IH. tauto. Qed.

Lemma run_deep d l lws d' : shows d l lws d' -> d = dir \/ d = file ->
  forall ls rs, Forall2 line_of ls lws -> placed rs l -> ~ short_list 4095 (rev rs) l -> run_lines ls (st rs d) = UB.
Proof.
  induction 1 as [d|d l lws d' H IH|d d1 ws l lws d' T D1 H IH|d name dig ws l lws d' A T G H IH
    |d name ty ws l lws d' A T T1 T2 H IH|d name ws up sub ls1 d1 l ls2 d2 A SL T G H1 IH1 H2 IH2]; intros D.
  - intros ls rs F _ NS. now destruct NS.
  - intros ls rs F PL SH. inversion F as [|x ? ls' ? L F']; subst.
    apply line_words in L. cbn [run_lines]. unfold mtree_interpret. rewrite L.
    cbn [bind]. rewrite (IH D ls' rs F' PL SH). reflexivity.
  - intros ls rs F PL SH. inversion F as [|x ? ls' ? L F']; subst.
    cbn [run_lines]. rewrite (interpret_set _ _ _ L). cbn [st m_dir m_path m_pwd]. rewrite (set_type _ _ _ T D1).
    fold (st rs d1). cbn [bind]. rewrite (IH D1 ls' rs F' PL SH). reflexivity.
  - intros ls rs F PL SH. inversion F as [|x ? ls' ? L F']; subst.
    cbn [run_lines]. rewrite (interpret_name _ _ _ _ L A). cbn [st m_dir m_path m_pwd].
    rewrite (tyf_type _ _ _ T (or_intror eq_refl)). change (isdir file) with false. cbn beta match.
    rewrite (dgf_only _ _ G).
    assert (placed rs l) as PL'.
    { intros E. specialize (PL E). inversion PL as [|? ? (a & b & X) ?]. discriminate. }
    assert (run_lines ls' (st rs d) = UB) as R'.
    { apply (IH D); [exact F'|exact PL'|]. intros S. apply SH. split; [exact I|exact S]. }
    destruct (bytes_eqb dig no_bytes).
    + fold (st rs d). cbn [bind]. rewrite R'. reflexivity.
    + destruct rs as [|n rs]; [specialize (PL eq_refl); inversion PL as [|? ? (a & b & X) ?]; discriminate|].
      cbn [pwds]. cbn beta match. fold (pwds (n :: rs)). fold (st (n :: rs) d). cbn [bind]. rewrite R'. reflexivity.
  - intros ls rs F PL SH. inversion F as [|x ? ls' ? L F']; subst.
    cbn [run_lines]. rewrite (interpret_name _ _ _ _ L A). cbn [st m_dir m_path m_pwd].
    rewrite (tyf_other _ _ _ T T1 T2). cbn beta match. fold (st rs d). cbn [bind].
    rewrite (IH D ls' rs); [reflexivity|exact F'| |].
    + intros E. specialize (PL E). inversion PL as [|? ? (a & b & X) ?]. discriminate.
    + intros S. apply SH. split; [exact I|exact S].
  - intros ls rs F PL SH. inversion F as [|x ? ls' ? L F']; subst.
    apply Forall2_app_inv_r in F'. destruct F' as (la & lb & Fa & Fb & ->).
    inversion Fb as [|y ? lb' ? Ly Fb']; subst.
    destruct (run_shows _ _ _ _ H1 D) as [D1 R1].
    cbn [run_lines]. rewrite (interpret_name _ _ _ _ L A). cbn [st m_dir m_path m_pwd].
    rewrite (tyf_type _ _ _ T (or_introl eq_refl)). change (isdir dir) with true. cbn beta match.
    rewrite <- (app_nil_r ws), (dgf_none ws G). cbn [dgf]. cbn beta match zeta. rewrite pathtext_push.
    rewrite pathtext_rev, len_cons.
    assert (~ (len (slashed (rev (name :: rs))) < 4095 /\ short_list 4095 (rev (name :: rs)) sub) \/ ~ short_list 4095 (rev rs) l \/ False) as [SH'|[SH'|[]]].
    { cbn [short_list fold_right short] in SH. change (rev rs ++ [name]) with (rev (name :: rs)) in SH.
      destruct (short_list_dec 4095 (rev (name :: rs)) sub) as [Q|Q]; [|tauto].
      destruct (N.lt_decidable (len (slashed (rev (name :: rs)))) 4095) as [Q'|Q']; [|tauto].
      right. left. intros Q''. apply SH. repeat split; assumption. }
    + destruct (1 + len (slashed (rev (name :: rs))) <? 4096) eqn:LT; [|reflexivity].
      assert (~ short_list 4095 (rev (name :: rs)) sub) as NS.
      { intros Q. apply SH'. split; [lia|exact Q]. }
      cbn [bind skipn]. rewrite <- pathtext_rev.
      change (mkMt (pathtext (rev (name :: rs))) (isdir d) (slashed (rev (name :: rs)) :: pwds rs)) with (st (name :: rs) d).
      rewrite run_app. rewrite (IH1 D la (name :: rs) Fa ltac:(discriminate) NS). reflexivity.
    + destruct (1 + len (slashed (rev (name :: rs))) <? 4096) eqn:LT; [|reflexivity].
      cbn [bind skipn]. rewrite <- pathtext_rev.
      change (mkMt (pathtext (rev (name :: rs))) (isdir d) (slashed (rev (name :: rs)) :: pwds rs)) with (st (name :: rs) d).
      rewrite run_app.
      destruct (short_list_dec 4095 (rev (name :: rs)) sub) as [Q|Q];
        [|rewrite (IH1 D la (name :: rs) Fa ltac:(discriminate) Q); reflexivity].
      rewrite (R1 la (name :: rs) Fa ltac:(discriminate) Q). cbn [bind run_lines].
      rewrite (interpret_up _ _ _ Ly).
      change (m_pwd (st (name :: rs) d1)) with (slashed (rev (name :: rs)) :: pwds rs).
      change (m_dir (st (name :: rs) d1)) with (isdir d1).
      replace (m_path (st (name :: rs) d1)) with (pathtext (rev rs) ++ 47 :: name) by exact (pathtext_push rs name).
      cbv iota beta. rewrite before_app by exact SL. fold (st rs d1). cbn [bind].
      rewrite (IH2 D1 lb' rs Fb'); [reflexivity| |exact SH'].
      intros EE. specialize (PL EE). now inversion PL.
Qed.

Lemma deep_lemma cut b n text : (exists name l, n = NDir name l) -> listing 8191 (dflt b) n text -> ~ short 4095 [] n ->
  mtree_all cut text b = UB.
Proof.
  intros (name & l & ->) (ls & lws & d' & L & F & S) SH. pose proof (all_lines cut _ _ b L) as P.
  destruct (dflt_ok b) as [D1 D2].
  assert (run_lines ls (st [] (dflt b)) = UB) as E.
  { eapply run_deep; [exact S|exact D1|exact F| |].
    - intros _. constructor; [eauto|constructor].
    - intros [Q _]. now apply SH. }
  unfold st in E. rewrite D2 in E. cbn [rev pathtext flat_map pwds] in E. rewrite E in P. exact P.
Qed.

(* ---------------- too long ---------------- *)

Lemma calls_full cut fuel : forall inp rest buf s, (List.length inp < fuel)%nat -> ~ In 10 buf -> ~ In 10 inp -> len buf + len inp = 8191 ->
  exists ls, mtree_calls fuel cut (inp ++ rest) buf s = Ok (ls, inp) /\ concat ls = [].
Proof.
  induction fuel as [|fuel IH]; intros * HF NB NI E; [lia|]. cbn [mtree_calls]. set (n := N.min _ _).
  destruct inp as [|c inp].
  { rewrite len_nil in E. replace n with 0 by lia. cbn. exists []. auto. }
  rewrite len_cons in E.
  assert (1 <= n /\ n <= len (c :: inp)) as [N1 N2] by (rewrite len_cons; lia).
  assert (N.to_nat n <= List.length (c :: inp))%nat as NL by (unfold len in N2; lia).
  rewrite (firstn_app (N.to_nat n)), (skipn_app (N.to_nat n)).
  replace (N.to_nat n - List.length (c :: inp))%nat with 0%nat by lia. cbn [firstn skipn]. rewrite app_nil_r.
  set (got := firstn (N.to_nat n) (c :: inp)). set (inp' := skipn (N.to_nat n) (c :: inp)).
  assert (c :: inp = got ++ inp') as EI by (symmetry; apply firstn_skipn).
  assert (got <> []) as GN.
  { unfold got. destruct (N.to_nat n) eqn:E1; [lia|]. discriminate. }
  rewrite EI in NI |- *. pose proof (f_equal len EI) as EL. rewrite len_cons, len_app in EL.
  assert (List.length inp' < fuel)%nat as HR.
  { apply (f_equal (@List.length N)) in EI. rewrite app_length in EI. destruct got; [easy|]. cbn [List.length] in *. lia. }
  clearbody got inp'. destruct got as [|g got]; [easy|].
  assert (~ In 10 (buf ++ g :: got)) as NB'.
  { intros J. apply in_app_or in J. destruct J as [J|J]; [tauto|]. apply NI. apply in_or_app. now left. }
  cbv iota beta. replace (mtree_process [] (buf ++ g :: got) s) with (mtree_process [] ((buf ++ g :: got) ++ []) s) by now rewrite app_nil_r. rewrite process_plain by exact NB'. cbn [app mtree_process bind].
  destruct (IH inp' rest (buf ++ g :: got) s HR NB') as (ls & E1 & C1).
  { intros J. apply NI. apply in_or_app. now right. }
  { rewrite len_app. lia. }
  rewrite E1. exists ([] :: ls). split; [reflexivity|exact C1].
Qed.

Lemma full_lemma cut b t1 t2 : ~ In 10 t1 -> len t1 = 8191 ->
  exists reads, mtree_all cut (t1 ++ t2) b = Ok (reads, t1) /\ concat reads = [].
Proof.
  intros NI L. unfold mtree_all. apply calls_full; [rewrite app_length; lia|easy|exact NI|exact L].
Qed.

(* ---------------- one way to print any tree ---------------- *)

Fixpoint show (n : node) : list (list bytes) :=
  match n with
  | NDir name l => [name; str "type=dir"] :: flat_map show l ++ [[str ".."]]
  | NFile name dig => [[name; str "sha256digest=" ++ dig]]
  | NOther name => [[name; str "type=link"]]
  end.
Fixpoint unwords (ws : list bytes) : bytes := match ws with [] => [] | [w] => w | w :: r => w ++ [32] ++ unwords r end.
Definition print (n : node) : bytes := flat_map (fun ws => unwords ws ++ [10]) (show n).

Definition okword (w : bytes) : Prop := w <> [] /\ Forall (fun c => ~ white c /\ c <> 92) w.
Fixpoint oknode (n : node) : Prop :=
  match n with
  | NDir name l => okword name /\ a_name name /\ ~ In 47 name /\ fold_right (fun x P => oknode x /\ P) True l
  | NFile name dig => okword name /\ a_name name /\ okword dig
  | NOther name => okword name /\ a_name name
  end.

Lemma not_starts (p w : bytes) : begins p w = false -> ~ starts p w.
Proof. intros E H. apply begins_iff in H. congruence. Qed.

Lemma shows_app d l1 ls1 d1 : shows d l1 ls1 d1 -> forall l2 ls2 d2, shows d1 l2 ls2 d2 -> shows d (l1 ++ l2) (ls1 ++ ls2) d2.
Proof.
  induction 1; intros * S; cbn [app]; try (econstructor; eauto; fail).
  - exact S.
  - rewrite <- app_assoc. cbn [app]. eapply shows_dir; eauto.
Qed.

Lemma shows_show n : oknode n -> shows file [n] (show n) file.
Proof.
  induction n as [name l F|name dig|name] using node_all; intros OK; cbn [show].
  - destruct OK as (W & A & SL & OKL).
    assert (shows file l (flat_map show l) file) as S.
    { clear - F OKL. induction F as [|x l X F IH]; [constructor|]. destruct OKL as [O1 O2]. cbn [flat_map].
      change (x :: l) with ([x] ++ l). eapply shows_app; [now apply X|now apply IH]. }
    eapply shows_dir; [exact A|exact SL| | |exact S|constructor].
    + right. exists [], []. repeat split; constructor.
    + constructor; [|constructor]. apply not_starts. reflexivity.
  - destruct OK as (W & A & G). apply shows_file; [exact A| | |constructor].
    + left. split; [|reflexivity]. constructor; [|constructor]. apply not_starts. reflexivity.
    + exists [], []. repeat split; constructor.
  - destruct OK as (W & A). eapply (shows_other _ _ (str "link")); [exact A| | | |constructor].
    + exists [], []. repeat split; constructor.
    + discriminate.
    + discriminate.
Qed.

Lemma isspace_not c : ~ white c -> ~ blank c /\ c <> 10.
Proof. unfold white, blank. lia. Qed.
Lemma okword_plain w : okword w -> plain w.
Proof. intros [N F]. split; [exact N|]. eapply Forall_impl; [|exact F]. cbn. intros c [H _]. now apply isspace_not. Qed.
Lemma okword_str s : s <> [] -> forallb (fun c => negb (isspace c) && negb (c =? 92)) s = true -> okword s.
Proof.
  intros N H. split; [exact N|]. rewrite forallb_forall in H. apply Forall_forall. intros c I. specialize (H c I).
  split; [apply isspace_false; now destruct (isspace c)|]. destruct (isspace c); [discriminate|]. lia.
Qed.
Lemma okword_app a b : okword a -> okword b -> okword (a ++ b).
Proof. intros [N1 F1] [N2 F2]. split; [now destruct a|]. apply Forall_app. auto. Qed.

Lemma show_words n : oknode n -> Forall (fun ws => ws <> [] /\ Forall okword ws) (show n).
Proof.
  induction n as [name l F|name dig|name] using node_all; intros OK; cbn [show].
  - destruct OK as (W & A & SL & OKL). constructor.
    { split; [discriminate|]. constructor; [exact W|]. constructor; [|constructor]. apply okword_str; [discriminate|reflexivity]. }
    apply Forall_app. split.
    + clear - F OKL. induction F as [|x l X F IH]; [constructor|]. destruct OKL as [O1 O2]. cbn [flat_map]. apply Forall_app. auto.
    + constructor; [|constructor]. split; [discriminate|]. constructor; [|constructor]. apply okword_str; [discriminate|reflexivity].
  - destruct OK as (W & A & G). constructor; [|constructor]. split; [discriminate|]. constructor; [exact W|]. constructor; [|constructor].
    apply (okword_app (str "sha256digest=")); [apply okword_str; [discriminate|reflexivity]|exact G].
  - destruct OK as (W & A). constructor; [|constructor]. split; [discriminate|]. constructor; [exact W|]. constructor; [|constructor].
    apply okword_str; [discriminate|reflexivity].
Qed.

Lemma unwords_spaced ws : Forall okword ws -> ws <> [] -> spaced (32 :: unwords ws) ws.
Proof.
  induction 1 as [|w ws W F IH]; [easy|]. intros _. destruct ws as [|w' ws].
  - cbn [unwords]. rewrite <- (app_nil_r w) at 1. apply (spaced_word [32] w []); [constructor; [now left|constructor]|discriminate|now apply okword_plain|].
    constructor. constructor.
  - change (unwords (w :: w' :: ws)) with (w ++ [32] ++ unwords (w' :: ws)).
    apply (spaced_word [32] w); [constructor; [now left|constructor]|discriminate|now apply okword_plain|].
    apply IH. discriminate.
Qed.
Lemma unwords_line ws : Forall okword ws -> ws <> [] -> line_of (unwords ws) ws.
Proof.
  intros F NE. destruct ws as [|w ws]; [easy|]. inversion F as [|? ? W F']; subst.
  exists [], (unwords (w :: ws)). split; [reflexivity|]. split; [constructor|]. split; [now apply okword_plain|]. split.
  - intros c r ->. destruct W as [_ W]. inversion W as [|? ? [X _] ?]. exact X.
  - destruct ws as [|w' ws].
    + exists []. cbn [unwords]. split; [now rewrite app_nil_r|]. constructor. constructor.
    + exists (32 :: unwords (w' :: ws)). split; [reflexivity|]. apply unwords_spaced; [exact F'|discriminate].
Qed.
Lemma unwords_chars ws : Forall okword ws -> Forall (fun c => c <> 10 /\ c <> 92) (unwords ws).
Proof.
  induction 1 as [|w ws [_ W] F IH]; [constructor|].
  assert (Forall (fun c => c <> 10 /\ c <> 92) w) as W'.
  { eapply Forall_impl; [|exact W]. cbn. intros c [H1 H2]. split; [now apply isspace_not|exact H2]. }
  destruct ws as [|w' ws]; [exact W'|]. change (unwords (w :: w' :: ws)) with (w ++ [32] ++ unwords (w' :: ws)).
  apply Forall_app. split; [exact W'|]. constructor; [lia|exact IH].
Qed.

Lemma last_in (A : Type) (l : list A) d : l <> [] -> In (last l d) l.
Proof.
  intros H. rewrite (app_removelast_last d H) at 2. apply in_or_app. right. now left.
Qed.

Lemma print_lines lim lws : Forall (fun ws => ws <> [] /\ Forall okword ws) lws -> Forall (fun ws => len (unwords ws) < lim) lws ->
  lines_of lim (flat_map (fun ws => unwords ws ++ [10]) lws) (map unwords lws) /\ Forall2 line_of (map unwords lws) lws.
Proof.
  induction 1 as [|ws lws [NE W] F IH]; intros FL; [split; constructor|]. inversion FL as [|? ? L FL']; subst. destruct (IH FL') as [I1 I2].
  cbn [flat_map map]. pose proof (unwords_chars _ W) as CH. rewrite Forall_forall in CH.
  assert (unwords ws <> []) as UN.
  { destruct ws as [|w [|w' ws]]; [easy| |]; inversion W as [|? ? [X _] ?]; subst; cbn [unwords]; now destruct w. }
  split.
  - rewrite <- app_assoc. refine (lines_more lim [] (unwords ws) _ _ _ _ _ _ I1).
    + constructor; [|constructor]. intros J. now apply CH in J.
    + apply CH. now apply last_in.
    + cbn. intros E. now injection E.
    + exact L.
  - constructor; [now apply unwords_line|exact I2].
Qed.

Lemma print_listing lim n : oknode n -> Forall (fun ws => len (unwords ws) < lim) (show n) -> listing lim file n (print n).
Proof.
  intros OK L. destruct (print_lines lim _ (show_words n OK) L) as [A B].
  exists (map unwords (show n)), (show n), file. repeat split; [exact A|exact B|now apply shows_show].
Qed.

(* ---------------- a directory in the archive ---------------- *)

Definition subj_of (data : entry -> list bytes) (e : entry) : subj := mkJ true (snd e) (data e).

Lemma archived_lemma : forall idsize prefix sha meta_text data b n text tdata cuts,
  plausible idsize sha prefix meta_text ->
  (exists name l, n = NDir name l) -> listing 8191 (dflt b) n text -> short 4095 [] n ->
  Forall (fun e => len (snd e) = 64 /\ data e <> [] /\ Forall (fun x => x <> []) (data e)) (files [] n) ->
  concat tdata = text -> Forall (fun x => x <> []) tdata -> text <> [] ->
  exists reads, mtree_all cuts text b = Ok (reads, text) /\
  let tree := mkJ false (sha text) tdata in
  forall arch w, reach idsize prefix sha meta_text tree (tree_new idsize tree) (map (map (subj_of data)) reads) arch w -> c_up (w_c w) = false ->
  In (cut idsize (sha text)) (s_arch (w_s w)) /\
  forall e, In e (files [] n) -> In (cut idsize (snd e)) (s_arch (w_s w)) \/ In (cut idsize (sha (concat (data e)))) (s_arch (w_s w)).
Proof.
  intros * PL DIR LI SH FD TD TN TX.
  destruct (listing_lemma cuts b n text DIR LI SH) as (reads & E & C). exists reads. split; [exact E|]. intros tree arch w R UP.
  assert (tdata <> []) as TN' by (intros ->; now subst text).
  assert (concat (map (map (subj_of data)) reads) = map (subj_of data) (files [] n)) as CM by (rewrite <- C; symmetry; apply concat_map).
  assert (fine_tree sha tree) as FT.
  { split; [reflexivity|]. split; [apply (pl_sha _ _ _ _ PL)|]. split; [split; assumption|]. cbn. unfold content. cbn. now rewrite TD. }
  assert (Forall fine_file (concat (map (map (subj_of data)) reads))) as FF.
  { rewrite CM. apply Forall_map. eapply Forall_impl; [|exact FD]. intros e (H1 & H2 & H3). repeat split; assumption. }
  destruct (stowed_lemma _ _ _ _ _ _ _ PL FF FT _ R UP) as (ans & MF & TR & _ & _ & IN & _).
  assert (forall x, In x (map fst ans) -> In (key idsize x) (s_arch (w_s w)) \/ In (cut idsize (sha (content x))) (s_arch (w_s w))) as K.
  { intros x J. apply in_map_iff in J. destruct J as ([y []] & <- & J).
    - left. now apply (proj1 (TR y)).
    - right. apply IN. unfold missing. apply in_map_iff. exists (y, false). split; [reflexivity|]. apply filter_In. auto. }
  rewrite MF, CM in K. split.
  - destruct (K tree) as [H|H]; [apply in_or_app; right; now left|exact H|]. unfold content in H. cbn [j_data tree] in H. now rewrite TD in H.
  - intros e J. destruct (K (subj_of data e)) as [H|H].
    + apply in_or_app. left. now apply in_map.
    + left. exact H.
    + right. exact H.
Qed.
