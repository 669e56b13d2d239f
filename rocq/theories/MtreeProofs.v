(* Proofs about MtreeModel.v *)
From Coq Require Import String Lia ZifyBool ZifyNat ZifyN.
From Verif Require Import Base BaseLemmas ListLemmas MtreeModel MtreeSpec.
Open Scope list_scope.
Open Scope N_scope.

(* ---------------- how the text is cut ---------------- *)

Lemma process_app t1 : forall t2 b s,
  mtree_process b (t1 ++ t2) s =
  let* (s1, l1, b1) := mtree_process b t1 s in
  let* (s2, l2, b2) := mtree_process b1 t2 s1 in Ok (s2, l1 ++ l2, b2).
Proof.
  induction t1 as [|c t1 IH]; intros; cbn [app mtree_process].
  { cbn [bind]. destruct (mtree_process b t2 s) as [[[? ?] ?]| | |]; reflexivity. }
  destruct (c =? 10).
  - destruct b as [|x b]; [apply IH|].
    destruct (last (x :: b) 0 =? 92); [apply IH|].
    destruct (mtree_interpret (x :: b) s) as [[s1 e]| | |]; cbn; try reflexivity.
    rewrite IH. destruct (mtree_process [] t1 s1) as [[[? ?] ?]| | |]; cbn; try reflexivity.
    destruct (mtree_process b0 t2 m) as [[[? ?] ?]| | |]; cbn; try reflexivity.
    now rewrite app_assoc.
  - apply IH.
Qed.

Lemma process_plain x : forall b s t, ~ In 10 x -> mtree_process b (x ++ t) s = mtree_process (b ++ x) t s.
Proof.
  induction x as [|c x IH]; intros * NI; cbn [app mtree_process].
  { now rewrite app_nil_r. }
  replace (c =? 10) with false by (destruct (c =? 10) eqn:E; [exfalso; apply NI; left; lia|reflexivity]).
  rewrite IH; [|intros I; apply NI; now right]. now rewrite <- app_assoc.
Qed.

Lemma left_plain t : forall b s s' l b', ~ In 10 b -> mtree_process b t s = Ok (s', l, b') -> ~ In 10 b'.
Proof.
  induction t as [|c t IH]; intros * NI E; cbn [mtree_process] in E.
  { now injection E as <- <- <-. }
  destruct (c =? 10) eqn:Ec.
  - destruct b as [|x b]; [now apply IH in E|].
    destruct (last (x :: b) 0 =? 92).
    + apply IH in E; [exact E|]. intros I. apply in_app_or in I. destruct I as [I|I]; [|cbn in I; lia].
      apply NI. assert (x :: b <> []) as NE by discriminate.
      rewrite (app_removelast_last 0 NE). apply in_or_app. now left.
    + destruct (mtree_interpret (x :: b) s) as [[s1 e]| | |]; cbn in E; try discriminate.
      destruct (mtree_process [] t s1) as [[[? ?] ?]| | |] eqn:E1; cbn in E; try discriminate.
      apply IH in E1; [|easy]. now injection E as <- <- <-.
  - apply IH in E; [exact E|]. intros I. apply in_app_or in I. destruct I as [I|[->|[]]]; [tauto|lia].
Qed.

Lemma left_len t : forall b s s' l b', mtree_process b t s = Ok (s', l, b') -> len b' <= len b + len t.
Proof.
  induction t as [|c t IH]; intros * E; cbn [mtree_process] in E.
  { injection E as <- <- <-. lia. }
  rewrite len_cons. destruct (c =? 10) eqn:Ec.
  - destruct b as [|x b]; [apply IH in E; lia|].
    destruct (last (x :: b) 0 =? 92).
    + apply IH in E. rewrite len_app in E.
      assert (len (removelast (x :: b)) + 1 = len (x :: b)).
      { assert (x :: b <> []) as NE by discriminate.
        rewrite (app_removelast_last 0 NE) at 2. rewrite len_app. reflexivity. }
      change (len [32; 32]) with 2 in E. lia.
    + destruct (mtree_interpret (x :: b) s) as [[s1 e]| | |]; cbn in E; try discriminate.
      destruct (mtree_process [] t s1) as [[[? ?] ?]| | |] eqn:E1; cbn in E; try discriminate.
      apply IH in E1. injection E as <- <- <-. change (len (@nil N)) with 0 in E1. lia.
  - apply IH in E. rewrite len_app in E. change (len [c]) with 1 in E. lia.
Qed.

(* There is always room in the buffer *)
Definition fits (b text : bytes) (s : mtst) : Prop :=
  forall t1 t2 s' l b', text = t1 ++ t2 -> t2 <> [] -> mtree_process b t1 s = Ok (s', l, b') -> len b' < 8191.

Lemma calls_ok cut fuel : forall inp buf s, (List.length inp < fuel)%nat -> ~ In 10 buf -> fits buf inp s ->
  match mtree_process buf inp s with
  | Ok (_, l, _) => exists ls, mtree_calls fuel cut inp buf s = Ok (ls, inp) /\ concat ls = l
  | Abort => mtree_calls fuel cut inp buf s = Abort
  | UB => mtree_calls fuel cut inp buf s = UB
  | Fuel => mtree_calls fuel cut inp buf s = Fuel
  end.
Proof.
  induction fuel as [|fuel IH]; intros * HF NI FT; [lia|].
  cbn [mtree_calls]. set (n := N.min _ _).
  destruct inp as [|c inp].
  { rewrite firstn_nil. cbn. exists []. auto. }
  assert (1 <= n) as N1.
  { assert (len buf < 8191); [|lia]. eapply (FT [] (c :: inp)); [reflexivity|discriminate|reflexivity]. }
  set (got := firstn (N.to_nat n) (c :: inp)). set (rest := skipn (N.to_nat n) (c :: inp)).
  assert (c :: inp = got ++ rest) as EI by (symmetry; apply firstn_skipn).
  assert (got <> []) as GN.
  { unfold got. destruct (N.to_nat n) eqn:E; [lia|]. discriminate. }
  assert (List.length rest < fuel)%nat as HR.
  { apply (f_equal (@List.length N)) in EI. rewrite app_length in EI. destruct got; [easy|]. cbn [List.length] in *. lia. }
  rewrite EI. rewrite process_app. rewrite EI in FT. clearbody got rest.
  destruct got as [|g got]; [easy|].
  rewrite (process_plain buf [] s) by exact NI. cbn [app].
  change (g :: got ++ rest) with ((g :: got) ++ rest). 
  destruct (mtree_process buf (g :: got) s) as [[[s1 l1] b1]| | |] eqn:E1; cbn beta match delta [bind]; try reflexivity.
  assert (fits b1 rest s1) as FT1.
  { intros t1 t2 s' l b' -> T2 E. eapply (FT ((g :: got) ++ t1) t2); [now rewrite app_assoc|exact T2|].
    rewrite process_app, E1. cbn beta match delta [bind]. rewrite E. reflexivity. }
  specialize (IH rest b1 s1 HR (left_plain _ _ _ _ _ _ NI E1) FT1).
  destruct (mtree_process b1 rest s1) as [[[s2 l2] b2]| | |].
  - destruct IH as (ls & -> & CL). exists (l1 :: ls). split; [reflexivity|]. cbn. now rewrite CL.
  - rewrite IH. reflexivity.
  - rewrite IH. reflexivity.
  - rewrite IH. reflexivity.
Qed.

(* ---------------- the lines of it ---------------- *)

Fixpoint run_lines (ls : list bytes) (s : mtst) : res (mtst * list entry) :=
  match ls with
  | [] => Ok (s, [])
  | x :: r =>
      let* (s, e) := mtree_interpret x s in
      let* (s, l) := run_lines r s in
      Ok (s, e ++ l)
  end.

Lemma last_snoc (A : Type) (l : list A) x d : last (l ++ [x]) d = x.
Proof. apply last_last. Qed.

Lemma process_cont q b t s : ~ In 10 q -> mtree_process b (q ++ [92; 10] ++ t) s = mtree_process (b ++ q ++ [32; 32]) t s.
Proof.
  intros NQ. rewrite process_plain by exact NQ. cbn [app mtree_process].
  change (92 =? 10) with false. change (10 =? 10) with true. cbn beta match delta [bind].
  set (x := b ++ q). destruct (x ++ [92]) as [|y r] eqn:E; [now destruct x|].
  rewrite <- E, last_snoc. change (92 =? 92) with true. cbn beta match delta [bind].
  rewrite removelast_last. unfold x. now rewrite <- app_assoc.
Qed.

Lemma process_conts ps : forall b t s, Forall (fun q => ~ In 10 q) ps ->
  mtree_process b (flat_map (fun q => q ++ [92; 10]) ps ++ t) s = mtree_process (b ++ flat_map (fun q => q ++ [32; 32]) ps) t s.
Proof.
  induction ps as [|q ps IH]; intros * F; cbn [flat_map].
  { cbn. now rewrite app_nil_r. }
  inversion F as [|? ? F1 F2]; subst. rewrite <- !app_assoc.
  rewrite process_cont by exact F1. rewrite IH by exact F2. now rewrite <- !app_assoc.
Qed.

Lemma last_app_ne (A : Type) (a b : list A) d : b <> [] -> last (a ++ b) d = last b d.
Proof.
  intros NE. induction a as [|x a IH]; [reflexivity|]. cbn [app].
  destruct (a ++ b) eqn:E; [destruct a, b; easy|]. rewrite <- IH. reflexivity.
Qed.

Lemma last_not (ps : list bytes) (p : bytes) : last p 0 <> 92 -> ps ++ [p] <> [[]] ->
  flat_map (fun q => q ++ [32; 32]) ps ++ p <> [] /\ last (flat_map (fun q => q ++ [32; 32]) ps ++ p) 0 <> 92.
Proof.
  intros LP NE. destruct p as [|x p].
  - rewrite app_nil_r. destruct (exists_last (l := ps)) as (ps' & q & ->).
    { intros ->. now apply NE. }
    rewrite flat_map_app. cbn [flat_map]. rewrite app_nil_r, (app_assoc _ q). split.
    + intros E. apply app_eq_nil in E. destruct E. discriminate.
    + rewrite last_app_ne by discriminate. cbn. discriminate.
  - split; [intros E; apply app_eq_nil in E; destruct E; discriminate|]. rewrite last_app_ne by discriminate. exact LP.
Qed.

Lemma process_raw ps p t s : Forall (fun q => ~ In 10 q) (p :: ps) -> last p 0 <> 92 -> ps ++ [p] <> [[]] ->
  mtree_process [] (flat_map (fun q => q ++ [92; 10]) ps ++ p ++ [10] ++ t) s =
  let* (s, e) := mtree_interpret (flat_map (fun q => q ++ [32; 32]) ps ++ p) s in
  let* (s, l, b) := mtree_process [] t s in Ok (s, e ++ l, b).
Proof.
  intros F LP NE. inversion F as [|? ? F1 F2]; subst. destruct (last_not ps p LP NE) as [A B].
  rewrite process_conts by exact F2. cbn [app]. rewrite process_plain by exact F1. cbn [mtree_process].
  change (10 =? 10) with true. cbn beta match delta [bind]. set (x := _ ++ p) in *. clearbody x.
  destruct x as [|y x]; [easy|]. replace (last (y :: x) 0 =? 92) with false by lia. reflexivity.
Qed.

Lemma process_lines text ls : lines_of 8191 text ls -> forall s,
  mtree_process [] text s = let* (s, l) := run_lines ls s in Ok (s, l, []).
Proof.
  induction 1 as [|t l H IH|ps p t l F LP NE LN H IH]; intros s.
  - reflexivity.
  - cbn [mtree_process]. change (10 =? 10) with true. cbn beta match delta [bind]. apply IH.
  - rewrite process_raw by assumption. cbn [run_lines].
    destruct (mtree_interpret _ s) as [[s1 e]| | |]; cbn beta match delta [bind]; try reflexivity.
    rewrite IH. destruct (run_lines l s1) as [[s2 l2]| | |]; reflexivity.
Qed.

Lemma split_app (A : Type) (a b t1 t2 : list A) : a ++ b = t1 ++ t2 ->
  (exists m, a = t1 ++ m /\ t2 = m ++ b /\ m <> []) \/ (exists m, t1 = a ++ m /\ b = m ++ t2).
Proof.
  revert t1. induction a as [|x a IH]; intros t1 E.
  - right. exists t1. auto.
  - destruct t1 as [|y t1].
    + left. exists (x :: a). cbn in *. repeat split; [auto|discriminate].
    + cbn in E. injection E as -> E. destruct (IH _ E) as [(m & -> & -> & M)|(m & -> & ->)].
      * left. exists m. auto.
      * right. exists m. auto.
Qed.

Lemma fits_lines text ls : lines_of 8191 text ls -> forall s, fits [] text s.
Proof.
  induction 1 as [|t l H IH|ps p t l F LP NE LN H IH]; intros s t1 t2 s' l' b' E T2 EP.
  - now destruct t1, t2.
  - destruct t1 as [|c t1]; [cbn in EP; injection EP as <- <- <-; reflexivity|].
    cbn in E. injection E as <- E. cbn [mtree_process] in EP. change (10 =? 10) with true in EP. cbn beta match delta [bind] in EP.
    eapply IH; eassumption.
  - rewrite !app_assoc in E. set (raw := _ ++ [10]) in E.
    assert (len raw <= 8191) as LR.
    { unfold raw. rewrite len_app. change (len [10]) with 1. lia. }
    destruct (split_app _ _ _ _ _ E) as [(m & E1 & E2 & M)|(m & E1 & E2)].
    + apply left_len in EP. change (len (@nil N)) with 0 in EP.
      apply (f_equal len) in E1. rewrite len_app in E1. destruct m; [easy|]. rewrite len_cons in E1. lia.
    + subst t1 t. unfold raw in EP. rewrite <- !app_assoc in EP. rewrite process_raw in EP by assumption.
      destruct (mtree_interpret _ s) as [[s1 e]| | |]; cbn beta match delta [bind] in EP; try discriminate.
      destruct (mtree_process [] m s1) as [[[s2 l2] b2]| | |] eqn:E1; cbn beta match delta [bind] in EP; try discriminate.
      injection EP as <- <- <-. eapply (IH s1 m t2); [reflexivity|exact T2|exact E1].
Qed.

Lemma all_lines cut text ls d : lines_of 8191 text ls ->
  match run_lines ls (mkMt [] d []) with
  | Ok (_, l) => exists rs, mtree_all cut text d = Ok (rs, text) /\ concat rs = l
  | Abort => mtree_all cut text d = Abort
  | UB => mtree_all cut text d = UB
  | Fuel => mtree_all cut text d = Fuel
  end.
Proof.
  intros H. pose proof (calls_ok cut (S (List.length text)) text [] (mkMt [] d []) ltac:(lia) ltac:(easy) (fits_lines _ _ H _)) as P.
  rewrite (process_lines _ _ H) in P. unfold mtree_all.
  destruct (run_lines ls (mkMt [] d [])) as [[s l]| | |]; exact P.
Qed.

(* ---------------- the words of a line ---------------- *)

Lemma begins_iff p w : begins p w = true <-> starts p w.
Proof.
  unfold begins, starts. split.
  - intros E. apply bytes_eqb_true in E. exists (skipn (List.length p) w). rewrite <- E at 1. now rewrite firstn_skipn.
  - intros [r ->]. rewrite firstn_app, Nat.sub_diag, firstn_all. cbn [firstn]. rewrite app_nil_r. apply bytes_eqb_refl.
Qed.
Lemma begins_not p w : ~ starts p w -> begins p w = false.
Proof. intros H. destruct (begins p w) eqn:E; [|reflexivity]. now apply begins_iff in E. Qed.

Definition nonempty (w : bytes) : bool := match w with [] => false | _ => true end.

Lemma words_ne s : words s <> [].
Proof. destruct s as [|c r]; [discriminate|]. cbn [words]. destruct (_ || _); [discriminate|]. destruct (words r); discriminate. Qed.

Lemma words_plain w t : Forall (fun c => ~ blank c) w -> exists x l, words t = x :: l /\ words (w ++ t) = (w ++ x) :: l.
Proof.
  induction 1 as [|c w B F IH].
  - destruct (words t) as [|x l] eqn:E; [now apply words_ne in E|]. exists x, l. auto.
  - destruct IH as (x & l & E1 & E2). exists x, l. split; [exact E1|]. cbn [app words].
    unfold blank in B. replace ((c =? 32) || (c =? 9)) with false by lia. now rewrite E2.
Qed.

Lemma words_blank b t : Forall blank b -> b <> [] -> exists l, words (b ++ t) = [] :: l /\ filter nonempty l = filter nonempty (words t).
Proof.
  induction 1 as [|c b B F IH]; [easy|]. intros _. cbn [app words].
  unfold blank in B. replace ((c =? 32) || (c =? 9)) with true by lia.
  eexists. split; [reflexivity|].
  destruct b as [|c' b]; [reflexivity|]. destruct (IH ltac:(discriminate)) as (l & -> & E). exact E.
Qed.

Lemma spaced_words t l : spaced t l -> exists l', words t = [] :: l' /\ filter nonempty l' = l.
Proof.
  induction 1 as [b B|b w s l B NE [WN W] H IH].
  - destruct b as [|c b]; [exists []; auto|].
    destruct (words_blank (c :: b) [] B ltac:(discriminate)) as (l & E & F). rewrite app_nil_r in E. exists l. auto.
  - destruct (words_blank b (w ++ s) B NE) as (l1 & E & F). exists l1. split; [exact E|]. rewrite F.
    destruct (words_plain w s W) as (x & l2 & E1 & E2). rewrite E2.
    destruct IH as (l' & E3 & F3). rewrite E3 in E1. injection E1 as <- <-. rewrite app_nil_r.
    cbn [filter]. destruct w; [easy|]. cbn [nonempty]. now rewrite F3.
Qed.

Lemma isspace_iff c : isspace c = true <-> white c.
Proof. unfold isspace, white. lia. Qed.
Lemma isspace_false c : isspace c = false <-> ~ white c.
Proof. unfold isspace, white. lia. Qed.
Lemma no_bytes_ok : no_bytes = of_nothing.
Proof. vm_compute. reflexivity. Qed.
Lemma skip_space_app sp s : Forall white sp -> (forall c r, s = c :: r -> ~ white c) ->
  skip_space (sp ++ s) = s.
Proof.
  intros F H. induction F as [|c sp E F IH]; cbn [app skip_space].
  - destruct s as [|c r]; [reflexivity|]. cbn [skip_space]. now rewrite (proj2 (isspace_false c) (H c r eq_refl)).
  - now rewrite (proj2 (isspace_iff c) E).
Qed.

Lemma line_words line ws : line_of line ws ->
  match ws with
  | [] => words (skip_space line) = [[]]
  | w :: l => plain w /\ exists l', words (skip_space line) = w :: l' /\ filter nonempty l' = l
  end.
Proof.
  intros (sp & s & -> & F & H). destruct ws as [|w l].
  - subst s. now rewrite skip_space_app.
  - destruct H as ([WN W] & HN & t & -> & ST). split; [split; assumption|].
    rewrite skip_space_app; [|exact F|].
    + destruct (spaced_words _ _ ST) as (l' & E & FL). exists l'. split; [|exact FL].
      destruct (words_plain w t W) as (x & l2 & E1 & E2). rewrite E in E1. injection E1 as <- <-.
      now rewrite app_nil_r in E2.
    + intros c r E. destruct w as [|c' w]; [easy|]. cbn in E. injection E as <- _. eapply HN. reflexivity.
Qed.

Lemma set_words_filter l : forall d, set_words l d = set_words (filter nonempty l) d.
Proof. induction l as [|w l IH]; intros d; [reflexivity|]. destruct w; cbn [filter nonempty]; [apply IH|]. cbn [set_words]. apply IH. Qed.
Lemma entry_words_filter l : forall d g, entry_words l d g = entry_words (filter nonempty l) d g.
Proof.
  induction l as [|w l IH]; intros d g; [reflexivity|]. destruct w; cbn [filter nonempty]; [apply IH|].
  cbn [entry_words]. destruct (bytes_eqb _ _); [apply IH|]. destruct (bytes_eqb _ _); [apply IH|].
  destruct (begins _ _); [reflexivity|]. destruct (begins _ _); [|apply IH]. destruct (bytes_eqb _ _); [reflexivity|apply IH].
Qed.

(* the type and the digest apart *)
Fixpoint tyf (ws : list bytes) (d : bool) : option bool :=
  match ws with
  | [] => Some d
  | w :: r => if bytes_eqb w (str "type=dir") then tyf r true else if bytes_eqb w (str "type=file") then tyf r false
              else if begins (str "type=") w then None else tyf r d
  end.
Fixpoint dgf (ws : list bytes) (g : option bytes) : option (option bytes) :=
  match ws with
  | [] => Some g
  | w :: r => if begins (str "sha256digest=") w then if bytes_eqb (skipn 13 w) no_bytes then None else dgf r (Some (skipn 13 w))
              else dgf r g
  end.

Lemma entry_words_two ws : forall d g,
  entry_words ws d g = match tyf ws d, dgf ws g with Some d, Some g => Some (d, g) | _, _ => None end.
Proof.
  induction ws as [|w ws IH]; intros d g; [reflexivity|]. cbn [entry_words tyf dgf].
  destruct (bytes_eqb w (str "type=dir")) eqn:E1.
  { apply bytes_eqb_true in E1. subst w. rewrite IH. reflexivity. }
  destruct (bytes_eqb w (str "type=file")) eqn:E2.
  { apply bytes_eqb_true in E2. subst w. rewrite IH. reflexivity. }
  destruct (begins (str "type=") w); [reflexivity|].
  destruct (begins (str "sha256digest=") w); [|apply IH].
  destruct (bytes_eqb (skipn 13 w) no_bytes); [now destruct (tyf ws d)|apply IH].
Qed.

Lemma eqb_not (p w r : bytes) : ~ starts p w -> bytes_eqb w (p ++ r) = false.
Proof. intros H. destruct (bytes_eqb w (p ++ r)) eqn:E; [|reflexivity]. apply bytes_eqb_true in E. exfalso. apply H. now exists r. Qed.

Lemma tyf_none a : none TYPE a -> forall r d, tyf (a ++ r) d = tyf r d.
Proof.
  induction 1 as [|w a H F IH]; intros; [reflexivity|]. cbn [app tyf].
  change (str "type=dir") with (TYPE ++ dir). change (str "type=file") with (TYPE ++ file).
  rewrite !eqb_not by exact H. change (str "type=") with TYPE. rewrite begins_not by exact H. apply IH.
Qed.
Lemma set_none a : none TYPE a -> forall r d, set_words (a ++ r) d = set_words r d.
Proof.
  induction 1 as [|w a H F IH]; intros; [reflexivity|]. cbn [app set_words].
  change (str "type=dir") with (TYPE ++ dir). change (str "type=file") with (TYPE ++ file).
  rewrite !eqb_not by exact H. apply IH.
Qed.
Lemma dgf_none a : none DIGEST a -> forall r d, dgf (a ++ r) d = dgf r d.
Proof.
  induction 1 as [|w a H F IH]; intros; [reflexivity|]. cbn [app dgf].
  change (str "sha256digest=") with DIGEST. rewrite begins_not by exact H. apply IH.
Qed.

Definition isdir (d : bytes) : bool := bytes_eqb d dir.

Lemma tyf_type d ws ty : is_type d ws ty -> ty = dir \/ ty = file -> tyf ws (isdir d) = Some (isdir ty).
Proof.
  intros [[H ->]|(a & b & -> & A & B)] T.
  - rewrite <- (app_nil_r ws), tyf_none by exact H. reflexivity.
  - rewrite tyf_none by exact A. destruct T as [-> | ->].
    + change (tyf ((TYPE ++ dir) :: b) (isdir d)) with (tyf b true). rewrite <- (app_nil_r b), tyf_none by exact B. reflexivity.
    + change (tyf ((TYPE ++ file) :: b) (isdir d)) with (tyf b false). rewrite <- (app_nil_r b), tyf_none by exact B. reflexivity.
Qed.
Lemma set_type d ws ty : is_type d ws ty -> ty = dir \/ ty = file -> set_words ws (isdir d) = isdir ty.
Proof.
  intros [[H ->]|(a & b & -> & A & B)] T.
  - rewrite <- (app_nil_r ws), set_none by exact H. reflexivity.
  - rewrite set_none by exact A. destruct T as [-> | ->].
    + change (set_words ((TYPE ++ dir) :: b) (isdir d)) with (set_words b true). rewrite <- (app_nil_r b), set_none by exact B. reflexivity.
    + change (set_words ((TYPE ++ file) :: b) (isdir d)) with (set_words b false). rewrite <- (app_nil_r b), set_none by exact B. reflexivity.
Qed.
Lemma tyf_other ws ty d : only TYPE ws ty -> ty <> dir -> ty <> file -> tyf ws d = None.
Proof.
  intros (a & b & -> & A & B) T1 T2. rewrite tyf_none by exact A. cbn [tyf].
  assert (forall x, ty <> x -> bytes_eqb (TYPE ++ ty) (TYPE ++ x) = false) as NE.
  { intros x X. destruct (bytes_eqb (TYPE ++ ty) (TYPE ++ x)) eqn:E; [|reflexivity].
    apply bytes_eqb_true in E. apply app_inv_head in E. easy. }
  change (str "type=dir") with (TYPE ++ dir). change (str "type=file") with (TYPE ++ file).
  rewrite !NE by assumption. change (str "type=") with TYPE.
  now rewrite (proj2 (begins_iff _ _)) by now exists ty.
Qed.
Lemma dgf_only ws dig : only DIGEST ws dig -> dgf ws None = if bytes_eqb dig no_bytes then None else Some (Some dig).
Proof.
  intros (a & b & -> & A & B). rewrite dgf_none by exact A. cbn [dgf].
  change (str "sha256digest=") with DIGEST. rewrite (proj2 (begins_iff _ _)) by now exists dig.
  change (skipn 13 (DIGEST ++ dig)) with dig. destruct (bytes_eqb dig no_bytes); [reflexivity|].
  rewrite <- (app_nil_r b), dgf_none by exact B. reflexivity.
Qed.

(* ---------------- the tree ---------------- *)

Definition pathtext (names : list bytes) : bytes := flat_map (fun n => 47 :: n) names.
Fixpoint pwds (rs : list bytes) : list bytes :=
  match rs with [] => [] | n :: r => slashed (rev (n :: r)) :: pwds r end.
Definition st (rs : list bytes) (d : bytes) : mtst := mkMt (pathtext (rev rs)) (isdir d) (pwds rs).

Lemma pathtext_slashed l : l <> [] -> pathtext l = 47 :: slashed l.
Proof.
  induction l as [|n [|m l] IH]; intros H; [easy|cbn; now rewrite app_nil_r|].
  unfold pathtext in *. cbn [flat_map] in *. rewrite IH by discriminate. reflexivity.
Qed.

Lemma before_none n : ~ In 47 n -> before_slash n = None.
Proof.
  induction n as [|c n IH]; intros H; [reflexivity|]. cbn [before_slash].
  rewrite IH by (intros I; apply H; now right). destruct (c =? 47) eqn:E; [|reflexivity]. exfalso. apply H. left. lia.
Qed.
Lemma before_app p n : ~ In 47 n -> before_slash (p ++ 47 :: n) = Some p.
Proof.
  intros H. induction p as [|c p IH]; cbn [app before_slash].
  - rewrite before_none by exact H. reflexivity.
  - now rewrite IH.
Qed.

Lemma pathtext_push rs n : pathtext (rev rs) ++ [47] ++ n = pathtext (rev (n :: rs)).
Proof. unfold pathtext. cbn [rev]. rewrite flat_map_app. cbn [flat_map]. now rewrite app_nil_r. Qed.

Lemma pathtext_rev rs n : pathtext (rev (n :: rs)) = 47 :: slashed (rev (n :: rs)).
Proof. apply pathtext_slashed. cbn. now destruct (rev rs). Qed.

Lemma not_eqb (a b : bytes) : a <> b -> bytes_eqb a b = false.
Proof. intros H. destruct (bytes_eqb a b) eqn:E; [|reflexivity]. now apply bytes_eqb_true in E. Qed.

(* the body of mtree_interpret for a name *)
Lemma interpret_name line name ws s : line_of line (name :: ws) -> a_name name ->
  mtree_interpret line s =
  match tyf ws (m_dir s), dgf ws None with
  | Some false, Some dig => match m_pwd s, dig with d :: _, Some dig => Ok (s, [(d, name, dig)]) | _, _ => Abort end
  | Some true, Some _ => let p := m_path s ++ [47] ++ name in
      if len p <? 4096 then Ok (mkMt p (m_dir s) (skipn 1 p :: m_pwd s), []) else UB
  | _, _ => Ok (s, [])
  end.
Proof.
  intros H [A1 A2]. apply line_words in H. destruct H as ([P _] & l' & E & F). unfold mtree_interpret. rewrite E.
  destruct name as [|c name]; [easy|]. rewrite !not_eqb by assumption.
  rewrite entry_words_filter, F, entry_words_two. destruct (tyf ws (m_dir s)) as [[]|], (dgf ws None); reflexivity.
Qed.

Lemma interpret_set line ws s : line_of line (str "/set" :: ws) ->
  mtree_interpret line s = Ok (mkMt (m_path s) (set_words ws (m_dir s)) (m_pwd s), []).
Proof.
  intros H. apply line_words in H. destruct H as (_ & l' & E & F). unfold mtree_interpret.
  pose proof (f_equal (hd []) E) as E1. pose proof (f_equal (@tl _) E) as E2. cbn [hd tl] in E1, E2.
  destruct (words (skip_space line)) as [|[|c w] l]; [discriminate E1|discriminate E1|]. cbn [hd tl] in E1, E2. rewrite E1.
  change (bytes_eqb (str "/set") (str "/set")) with true. cbv iota. rewrite set_words_filter, E2, F. reflexivity.
Qed.
Lemma interpret_up line ws s : line_of line (str ".." :: ws) ->
  mtree_interpret line s =
  match m_pwd s with
  | [] => Abort
  | _ :: up => Ok (mkMt (match before_slash (m_path s) with Some p => p | None => [] end) (m_dir s) up, [])
  end.
Proof.
  intros H. apply line_words in H. destruct H as (_ & l' & E & F). unfold mtree_interpret.
  pose proof (f_equal (hd []) E) as E1. pose proof (f_equal (@tl _) E) as E2. cbn [hd tl] in E1, E2.
  destruct (words (skip_space line)) as [|[|c w] l]; [discriminate E1|discriminate E1|]. cbn [hd tl] in E1, E2. rewrite E1.
  change (bytes_eqb (str "..") (str "/set")) with false. change (bytes_eqb (str "..") (str "..")) with true. reflexivity.
Qed.

Lemma run_app a : forall b s, run_lines (a ++ b) s =
  let* (s1, l1) := run_lines a s in let* (s2, l2) := run_lines b s1 in Ok (s2, l1 ++ l2).
Proof.
  induction a as [|x a IH]; intros b s; cbn [app run_lines].
  { cbn [bind]. destruct (run_lines b s) as [[? ?]| | |]; reflexivity. }
  destruct (mtree_interpret x s) as [[s1 e]| | |]; cbn beta match delta [bind]; try reflexivity.
  rewrite IH. destruct (run_lines a s1) as [[s2 l2]| | |]; cbn beta match delta [bind]; try reflexivity.
  destruct (run_lines b s2) as [[s3 l3]| | |]; cbn beta match delta [bind]; try reflexivity. now rewrite app_assoc.
Qed.

Definition placed (rs : list bytes) (l : list node) : Prop := rs = [] -> Forall (fun n => exists a b, n = NDir a b) l.

Lemma run_shows d l lws d' : shows d l lws d' -> d = dir \/ d = file -> (d' = dir \/ d' = file) /\
  forall ls rs, Forall2 line_of ls lws -> placed rs l -> fold_right (fun x P => short 4095 (rev rs) x /\ P) True l ->
  run_lines ls (st rs d) = Ok (st rs d', flat_map (files (rev rs)) l).
Proof.
  induction 1 as [d|d l lws d' H IH|d d1 ws l lws d' T D1 H IH|d name dig ws l lws d' A T G H IH
    |d name ty ws l lws d' A T T1 T2 H IH|d name ws up sub ls1 d1 l ls2 d2 A SL T G H1 IH1 H2 IH2]; intros D.
  - split; [exact D|]. intros ls rs F _ _. inversion F. reflexivity.
  - destruct (IH D) as [D' R]. split; [exact D'|]. intros ls rs F PL SH. inversion F as [|x ? ls' ? L F']; subst.
    apply line_words in L. cbn [run_lines]. unfold mtree_interpret. rewrite L.
    cbn beta match delta [bind]. rewrite (R ls' rs F' PL SH). reflexivity.
  - destruct (IH D1) as [D' R]. split; [exact D'|]. intros ls rs F PL SH. inversion F as [|x ? ls' ? L F']; subst.
    cbn [run_lines]. rewrite (interpret_set _ _ _ L). cbn [st m_dir m_path m_pwd]. rewrite (set_type _ _ _ T D1).
    fold (st rs d1). cbn [bind]. rewrite (R ls' rs F' PL SH). reflexivity.
  - destruct (IH D) as [D' R]. split; [exact D'|]. intros ls rs F PL SH. inversion F as [|x ? ls' ? L F']; subst.
    cbn [run_lines flat_map]. rewrite (interpret_name _ _ _ _ L A). cbn [st m_dir m_path m_pwd].
    rewrite (tyf_type _ _ _ T (or_intror eq_refl)). change (isdir file) with false. cbn beta match delta [bind].
    rewrite (dgf_only _ _ G). cbn [files]. rewrite <- no_bytes_ok.
    assert (placed rs l) as PL'.
    { intros E. specialize (PL E). inversion PL as [|? ? (a & b & X) ?]. discriminate. }
    assert (run_lines ls' (st rs d) = Ok (st rs d', flat_map (files (rev rs)) l)) as R'.
    { apply R; [exact F'|exact PL'|exact (proj2 SH)]. }
    destruct (bytes_eqb dig no_bytes).
    + fold (st rs d). cbn beta match delta [bind]. rewrite R'. reflexivity.
    + destruct rs as [|n rs]; [specialize (PL eq_refl); inversion PL as [|? ? (a & b & X) ?]; discriminate|].
      cbn [pwds]. cbn beta match delta [bind]. fold (pwds (n :: rs)). fold (st (n :: rs) d). rewrite R'. reflexivity.
  - destruct (IH D) as [D' R]. split; [exact D'|]. intros ls rs F PL SH. inversion F as [|x ? ls' ? L F']; subst.
    cbn [run_lines flat_map]. rewrite (interpret_name _ _ _ _ L A). cbn [st m_dir m_path m_pwd].
    rewrite (tyf_other _ _ _ T T1 T2). cbn beta match delta [bind]. fold (st rs d).
    rewrite (R ls' rs); [reflexivity|exact F'| |exact (proj2 SH)].
    intros E. specialize (PL E). inversion PL as [|? ? (a & b & X) ?]. discriminate.
  - destruct (IH1 D) as [D1 R1]. destruct (IH2 D1) as [D2 R2]. split; [exact D2|].
    intros ls rs F PL SH. inversion F as [|x ? ls' ? L F']; subst.
    apply Forall2_app_inv_r in F'. destruct F' as (la & lb & Fa & Fb & ->).
    inversion Fb as [|y ? lb' ? Ly Fb']; subst. destruct SH as [[SH0 SH1] SH2].
    cbn [run_lines flat_map]. rewrite (interpret_name _ _ _ _ L A). cbn [st m_dir m_path m_pwd].
    rewrite (tyf_type _ _ _ T (or_introl eq_refl)). change (isdir dir) with true. cbn beta match delta [bind].
    rewrite <- (app_nil_r ws), (dgf_none ws G). cbn [dgf]. cbn beta match zeta delta [bind]. rewrite pathtext_push.
    change (rev rs ++ [name]) with (rev (name :: rs)) in SH0, SH1.
    rewrite pathtext_rev, len_cons.
    destruct (1 + len (slashed (rev (name :: rs))) <? 4096) eqn:LT; [|lia].
    cbn [bind skipn]. rewrite <- pathtext_rev.
    change (mkMt (pathtext (rev (name :: rs))) (isdir d) (slashed (rev (name :: rs)) :: pwds rs)) with (st (name :: rs) d).
    rewrite run_app. rewrite (R1 la (name :: rs) Fa ltac:(discriminate) SH1). cbn [bind run_lines].
    rewrite (interpret_up _ _ _ Ly).
    change (m_pwd (st (name :: rs) d1)) with (slashed (rev (name :: rs)) :: pwds rs).
    change (m_dir (st (name :: rs) d1)) with (isdir d1).
    replace (m_path (st (name :: rs) d1)) with (pathtext (rev rs) ++ 47 :: name) by exact (pathtext_push rs name).
    cbv iota beta.
    rewrite before_app by exact SL. fold (st rs d1). cbn [bind].
    rewrite (R2 lb' rs Fb'); [reflexivity| |exact SH2].
    intros EE. specialize (PL EE). now inversion PL.
Qed.
