(* Concrete listings *)
From Coq Require Import String Lia ZifyBool ZifyNat ZifyN.
From Verif Require Import Base BaseLemmas ListLemmas MtreeModel MtreeSpec MtreeProofs MtreeMain.
Open Scope list_scope.
Open Scope N_scope.

Definition dg : bytes := str "2c26b46b68ffc68ff99b453c1d30413413422d706483bfa0f98a5e886266e7ae".
(* A directory with a file, an empty file, a symbolic link and another directory with
   a file *)
Definition n0 : node :=
  NDir (str ".") [NFile (str "f") dg; NFile (str "e") of_nothing; NOther (str "l"); NDir (str "sub") [NFile (str "g\040h") dg]].
Definition t0 : bytes :=
  str "/set type=file nlink=1" ++ [10] ++
  str ".               type=dir nlink=3" ++ [10] ++
  str "    f           size=3 \" ++ [10] ++ str "                sha256digest=" ++ dg ++ [10] ++
  str "    e           size=0 sha256digest=" ++ no_bytes ++ [10] ++
  str "    l           type=link link=f" ++ [10] ++ [10] ++
  str "/set type=dir" ++ [10] ++
  str "sub" ++ [10] ++
  str "    g\040h  type=file sha256digest=" ++ dg ++ [9; 10] ++
  str ".." ++ [10; 10] ++
  str ".." ++ [10].

Lemma n0_files : files [] n0 = [(str ".", str "f", dg); (str "./sub", str "g\040h", dg)].
Proof. unfold n0. cbn [files flat_map]. rewrite <- no_bytes_ok. vm_compute. reflexivity. Qed.

(* One line from its pieces *)
Lemma more lim ps p t l line text : Forall (fun q => ~ In 10 q) (p :: ps) -> last p 0 <> 92 -> ps ++ [p] <> [[]] ->
  len (flat_map (fun q => q ++ [92; 10]) ps ++ p) < lim -> lines_of lim t l ->
  text = flat_map (fun q => q ++ [92; 10]) ps ++ p ++ [10] ++ t -> line = flat_map (fun q => q ++ [32; 32]) ps ++ p ->
  lines_of lim text (line :: l).
Proof. intros * F LP NE LN H -> ->. now apply lines_more. Qed.

(* A test whether a line has these words *)
Fixpoint take_blank (s : bytes) : bytes := match s with c :: r => if (c =? 32) || (c =? 9) then take_blank r else s | [] => [] end.
Fixpoint prefixb (w s : bytes) : option bytes :=
  match w, s with [] , _ => Some s | a :: w, b :: s => if a =? b then prefixb w s else None | _, _ => None end.
Definition plainb (w : bytes) : bool := match w with [] => false | _ => forallb (fun c => negb ((c =? 32) || (c =? 9))) w end.
Fixpoint spacedb (ws : list bytes) (s : bytes) : bool :=
  match ws with
  | [] => match take_blank s with [] => true | _ => false end
  | w :: r => match s with
              | c :: _ => if (c =? 32) || (c =? 9) then plainb w && match prefixb w (take_blank s) with Some s => spacedb r s | None => false end else false
              | [] => false
              end
  end.
Definition lineb (line : bytes) (ws : list bytes) : bool :=
  let s := skip_space line in
  match ws with
  | [] => match s with [] => true | _ => false end
  | w :: r => plainb w && match w with c :: _ => negb (isspace c) | [] => false end && match prefixb w s with Some t => spacedb r t | None => false end
  end.

Lemma take_blank_ok s : exists b, s = b ++ take_blank s /\ Forall blank b.
Proof.
  induction s as [|c s (b & E & F)]; [now exists []|]. cbn [take_blank]. destruct ((c =? 32) || (c =? 9)) eqn:B.
  - exists (c :: b). split; [cbn; now rewrite <- E|]. constructor; [unfold blank; lia|exact F].
  - now exists [].
Qed.
Lemma prefixb_ok w : forall s t, prefixb w s = Some t -> s = w ++ t.
Proof.
  induction w as [|a w IH]; intros s t E; cbn [prefixb] in E; [now injection E as ->|].
  destruct s as [|b s]; [discriminate|]. destruct (a =? b) eqn:AB; [|discriminate]. apply N.eqb_eq in AB. subst b.
  cbn [app]. now rewrite <- (IH _ _ E).
Qed.
Lemma plainb_ok w : plainb w = true -> plain w.
Proof.
  unfold plainb, plain. destruct w as [|c w]; [discriminate|]. intros H. split; [discriminate|]. rewrite forallb_forall in H. apply Forall_forall.
  intros x J. specialize (H x J). unfold blank. lia.
Qed.
Lemma spacedb_ok ws : forall s, spacedb ws s = true -> spaced s ws.
Proof.
  induction ws as [|w ws IH]; intros s E; cbn [spacedb] in E.
  - destruct (take_blank_ok s) as (b & E1 & F). destruct (take_blank s); [|discriminate]. rewrite E1, app_nil_r. now constructor.
  - destruct s as [|c s]; [discriminate|]. destruct ((c =? 32) || (c =? 9)) eqn:B; [|discriminate].
    apply andb_true_iff in E. destruct E as [P E]. destruct (prefixb w (take_blank (c :: s))) as [t|] eqn:Q; [|discriminate].
    apply prefixb_ok in Q. destruct (take_blank_ok (c :: s)) as (b & E1 & F). rewrite E1, Q. apply spaced_word.
    + exact F.
    + intros ->. cbn [app] in E1. rewrite <- E1 in Q. apply plainb_ok in P. destruct P as [PN PF].
      destruct w as [|x w]; [easy|]. cbn in Q. injection Q as -> _. inversion PF as [|? ? X _]. apply X. unfold blank. lia.
    + now apply plainb_ok.
    + now apply IH.
Qed.
Lemma skip_space_ok s : exists b, s = b ++ skip_space s /\ Forall white b.
Proof.
  induction s as [|c s (b & E & F)]; [now exists []|]. cbn [skip_space]. destruct (isspace c) eqn:B.
  - exists (c :: b). split; [cbn; now rewrite <- E|]. constructor; [now apply isspace_iff|exact F].
  - now exists [].
Qed.
Lemma lineb_ok line ws : lineb line ws = true -> line_of line ws.
Proof.
  unfold lineb, line_of. intros H. destruct (skip_space_ok line) as (b & E & F). exists b, (skip_space line). split; [exact E|]. split; [exact F|].
  destruct ws as [|w l]; [now destruct (skip_space line)|].
  apply andb_true_iff in H. destruct H as [H H3]. apply andb_true_iff in H. destruct H as [H1 H2]. split; [now apply plainb_ok|]. split.
  - intros c r ->. apply isspace_false. now destruct (isspace c).
  - destruct (prefixb w (skip_space line)) as [t|] eqn:Q; [|discriminate]. exists t. split; [now apply prefixb_ok|]. now apply spacedb_ok.
Qed.

(* Lines apart: the text up to the end of each *)
Fixpoint splitl (ps : list bytes) (cur : bytes) (t : bytes) : list (list bytes) :=
  match t with
  | [] => []
  | c :: r =>
      if c =? 10 then
        if last cur 0 =? 92 then splitl (ps ++ [removelast cur]) [] r
        else (ps ++ [cur]) :: splitl [] [] r
      else splitl ps (cur ++ [c]) r
  end.
Definition rawtext (ps : list bytes) : bytes := flat_map (fun q => q ++ [92; 10]) (removelast ps) ++ last ps [] ++ [10].
Definition logical (ps : list bytes) : bytes := flat_map (fun q => q ++ [32; 32]) (removelast ps) ++ last ps [].
Definition okps (lim : N) (ps : list bytes) : bool :=
  forallb (fun q => forallb (fun c => negb (c =? 10)) q) ps && negb (last (last ps []) 0 =? 92) && (len (rawtext ps) <=? lim) && match ps with [] => false | _ => true end.
Definition is_empty (ps : list bytes) : bool := match ps with [[]] => true | _ => false end.

Lemma lines_split lim lps : forallb (okps lim) lps = true ->
  lines_of lim (flat_map rawtext lps) (map logical (filter (fun ps => negb (is_empty ps)) lps)).
Proof.
  induction lps as [|ps lps IH]; intros H; [constructor|]. cbn [forallb] in H. apply andb_true_iff in H. destruct H as [H1 H2].
  specialize (IH H2). cbn [flat_map filter]. unfold okps in H1.
  apply andb_true_iff in H1. destruct H1 as [H1 NE]. apply andb_true_iff in H1. destruct H1 as [H1 L].
  apply andb_true_iff in H1. destruct H1 as [NL BS].
  assert (ps <> []) as NE' by (now destruct ps).
  pose proof (app_removelast_last [] NE') as E. set (a := removelast ps) in *. set (p := last ps []) in *.
  destruct (is_empty ps) eqn:IE; cbn [negb].
  - unfold is_empty in IE. destruct ps as [|[|? ?] [|? ?]]; try discriminate. cbn. now constructor.
  - cbn [map]. unfold rawtext, logical. fold a p. rewrite <- !app_assoc. apply lines_more; [| | | |exact IH].
    + rewrite E, forallb_app in NL. cbn [forallb] in NL. rewrite !andb_true_iff in NL. destruct NL as [N1 [N2 _]].
      assert (forall q, forallb (fun c => negb (c =? 10)) q = true -> ~ In 10 q) as K.
      { intros q Q J. rewrite forallb_forall in Q. specialize (Q _ J). discriminate. }
      constructor; [now apply K|]. apply Forall_forall. intros q J. apply K. rewrite forallb_forall in N1. now apply N1.
    + lia.
    + intros X. assert (ps = [[]]) as Y by (etransitivity; [exact E|exact X]). now rewrite Y in IE.
    + assert (len (rawtext ps) = len (flat_map (fun q => q ++ [92; 10]) a ++ p) + 1) as Q by (unfold rawtext; rewrite app_assoc, len_app; reflexivity).
      lia.
Qed.

Definition w0 : list (list bytes) :=
  [[str "/set"; str "type=file"; str "nlink=1"];
   [str "."; str "type=dir"; str "nlink=3"];
   [str "f"; str "size=3"; str "sha256digest=" ++ dg];
   [str "e"; str "size=0"; str "sha256digest=" ++ no_bytes];
   [str "l"; str "type=link"; str "link=f"];
   [str "/set"; str "type=dir"];
   [str "sub"];
   [str "g\040h"; str "type=file"; str "sha256digest=" ++ dg];
   [str ".."]; [str ".."]].

Lemma none_dec p ws : forallb (fun w => negb (begins p w)) ws = true -> none p ws.
Proof.
  intros H. apply Forall_forall. intros w J. rewrite forallb_forall in H. specialize (H w J). apply not_starts. now destruct (begins p w).
Qed.

Lemma t0_listing : listing 8191 file n0 t0.
Proof.
  pose proof (lines_split 8191 (splitl [] [] t0)) as L.
  assert (forallb (okps 8191) (splitl [] [] t0) = true) as A by (vm_compute; reflexivity). specialize (L A).
  replace (flat_map rawtext (splitl [] [] t0)) with t0 in L by (vm_compute; reflexivity).
  eexists. exists w0, dir. split; [exact L|]. split.
  - assert (forallb (fun e => lineb (fst e) (snd e)) (combine (map logical (filter (fun ps => negb (is_empty ps)) (splitl [] [] t0))) w0) = true) as B by (vm_compute; reflexivity).
    assert (forall (a : list bytes) (b : list (list bytes)), List.length a = List.length b -> forallb (fun e => lineb (fst e) (snd e)) (combine a b) = true -> Forall2 line_of a b) as K.
    { induction a as [|x a IH]; destruct b as [|y b]; cbn [List.length]; try discriminate; intros E F; [constructor|].
      cbn [combine forallb fst snd] in F. apply andb_true_iff in F. destruct F. constructor; [now apply lineb_ok|apply IH; [lia|assumption]]. }
    apply K; [vm_compute; reflexivity|exact B].
  - unfold w0, n0.
    apply (shows_set _ file); [right; exists [], [str "nlink=1"]; repeat split; apply none_dec; reflexivity|auto|].
    assert (forall s, bytes_eqb s (str "/set") = false -> bytes_eqb s (str "..") = false -> a_name s) as AN.
    { intros s H1 H2. split; intros ->; discriminate. }
    refine (shows_dir _ _ _ [] _ [_; _; _; _; _; _; _] dir [] [] _ _ _ _ _ _ _).
    + apply AN; reflexivity.
    + cbn. intuition discriminate.
    + right. exists [], [str "nlink=3"]. repeat split; apply none_dec; reflexivity.
    + apply none_dec. reflexivity.
    + apply shows_file; [apply AN; reflexivity|left; split; [apply none_dec; reflexivity|reflexivity]| |].
      { exists [str "size=3"], []. repeat split; apply none_dec; reflexivity. }
      apply shows_file; [apply AN; reflexivity|left; split; [apply none_dec; reflexivity|reflexivity]| |].
      { exists [str "size=0"], []. repeat split; apply none_dec; reflexivity. }
      apply (shows_other _ _ (str "link")); [apply AN; reflexivity| |discriminate|discriminate|].
      { exists [], [str "link=f"]. repeat split; apply none_dec; reflexivity. }
      apply (shows_set _ dir); [right; exists [], []; repeat split; apply none_dec; reflexivity|auto|].
      refine (shows_dir _ _ _ [] _ [_] dir [] [] _ _ _ _ _ _ _).
      * apply AN; reflexivity.
      * cbn. intuition discriminate.
      * left. split; [apply none_dec; reflexivity|reflexivity].
      * apply none_dec. reflexivity.
      * apply shows_file; [apply AN; reflexivity| | |constructor].
        -- right. exists [], [str "sha256digest=" ++ dg]. repeat split; apply none_dec; reflexivity.
        -- exists [str "type=file"], []. repeat split; apply none_dec; reflexivity.
      * constructor.
    + constructor.
Qed.
Lemma n0_short : short 4095 [] n0.
Proof. cbn. repeat split; reflexivity. Qed.

(* Five directories in each other, each with a name of 1000 bytes, as vis(3) makes of
   250 which are not ASCII *)
Definition longname : bytes := repeat 97 (N.to_nat 1000).
Fixpoint chain (k : nat) : list node := match k with O => [] | S k => [NDir longname (chain k)] end.
Definition n1 : node := NDir (str ".") (chain 5).
Definition t1 : bytes := print n1.

Fixpoint shortb (lim : N) (path : list bytes) (n : node) : bool :=
  match n with
  | NDir name l => (len (slashed (path ++ [name])) <? lim) && forallb (shortb lim (path ++ [name])) l
  | _ => true
  end.
Lemma shortb_ok lim n : forall path, short lim path n -> shortb lim path n = true.
Proof.
  induction n as [name l F|name dig|name] using node_all; intros path; [|reflexivity|reflexivity].
  cbn [short shortb]. intros [H1 H2]. apply andb_true_iff. split; [lia|].
  clear H1. set (q := path ++ [name]) in *. clearbody q. induction F as [|x l X F IH]; [reflexivity|].
  destruct H2 as [H2 H3]. cbn [forallb]. apply andb_true_iff. split; [now apply X|now apply IH].
Qed.
Lemma len_lines lim lws : forallb (fun ws => len (unwords ws) <? lim) lws = true -> Forall (fun ws => len (unwords ws) < lim) lws.
Proof. intros H. rewrite forallb_forall in H. apply Forall_forall. intros ws J. specialize (H ws J). lia. Qed.

Lemma long_ok : okword longname /\ a_name longname /\ ~ In 47 longname.
Proof.
  split; [|split].
  - apply okword_str; [discriminate|vm_compute; reflexivity].
  - split; discriminate.
  - intros J. apply repeat_spec in J. discriminate.
Qed.
Lemma chain_ok k : fold_right (fun x P => oknode x /\ P) True (chain k).
Proof. induction k as [|k IH]; [exact I|]. cbn. destruct long_ok as (A & B & C). tauto. Qed.
Lemma dot_ok : okword (str ".") /\ a_name (str ".") /\ ~ In 47 (str ".").
Proof.
  split; [apply okword_str; [discriminate|reflexivity]|]. split; [split; discriminate|]. cbn. intuition discriminate.
Qed.
Lemma t1_listing : listing 8191 file n1 t1.
Proof.
  apply print_listing.
  - destruct dot_ok as (A & B & C). cbn [n1 oknode]. split; [exact A|]. split; [exact B|]. split; [exact C|]. apply chain_ok.
  - apply len_lines. vm_compute. reflexivity.
Qed.
Lemma n1_deep : ~ short 4095 [] n1.
Proof. intros H. apply shortb_ok in H. revert H. vm_compute. discriminate. Qed.
Lemma n1_short : short 5008 [] n1.
Proof. vm_compute. repeat split; reflexivity. Qed.

Lemma deep_refuted : exists n text, (exists name l, n = NDir name l) /\ listing 8191 file n text /\ short 5008 [] n /\
  forall cut, mtree_all cut text false = UB.
Proof.
  exists n1, t1. assert (exists name l, n1 = NDir name l) as D by (unfold n1; eauto).
  split; [exact D|]. split; [exact t1_listing|]. split; [exact n1_short|]. intros cut.
  exact (deep_lemma cut false n1 t1 D t1_listing n1_deep).
Qed.

(* A line longer than the buffer, and a file behind it *)
Definition n2 : node := NDir (repeat 97 (N.to_nat 8191)) [NFile (str "f") dg].
Lemma n2_listing : listing 8300 file n2 (print n2).
Proof.
  apply print_listing.
  - cbn [n2 oknode fold_right]. split; [apply okword_str; [discriminate|vm_compute; reflexivity]|].
    split; [split; discriminate|]. split; [intros J; apply repeat_spec in J; discriminate|].
    split; [|exact I]. split; [apply okword_str; [discriminate|reflexivity]|]. split; [split; discriminate|].
    apply okword_str; [discriminate|reflexivity].
  - apply len_lines. vm_compute. reflexivity.
Qed.
Lemma limit_refuted : exists n text, (exists name l, n = NDir name l) /\ listing 8300 file n text /\ files [] n <> [] /\
  forall cut, exists reads tree, mtree_all cut text false = Ok (reads, tree) /\ concat reads = [] /\ tree <> text.
Proof.
  exists n2, (print n2). split; [unfold n2; eauto|]. split; [exact n2_listing|].
  split; [unfold n2; cbn [files flat_map]; rewrite <- no_bytes_ok; discriminate|]. intros cut.
  assert (exists t, print n2 = repeat 97 (N.to_nat 8191) ++ 32 :: t) as (t & ->).
  { unfold print, n2. cbn [show flat_map app unwords]. rewrite <- !app_assoc. cbn [app]. eexists. reflexivity. }
  destruct (full_lemma cut false (repeat 97 (N.to_nat 8191)) (32 :: t)) as (reads & E & C).
  - intros J. apply repeat_spec in J. discriminate.
  - unfold len. rewrite repeat_length. apply N2Nat.id.
  - exists reads, (repeat 97 (N.to_nat 8191)). split; [exact E|]. split; [exact C|].
    intros X. apply (f_equal len) in X. rewrite len_app, len_cons in X. lia.
Qed.

(* What is found, with the text in pieces of 70 bytes *)
Lemma t0_run : match mtree_all (fun _ => 70) t0 false with
  | Ok (reads, tree) => tree = t0 /\ concat reads = [(str ".", str "f", dg); (str "./sub", str "g\040h", dg)] /\ (5 < List.length reads)%nat
  | _ => False
  end.
Proof. vm_compute. repeat split; repeat constructor. Qed.
