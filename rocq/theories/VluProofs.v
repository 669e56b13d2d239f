(* Lemmas about VluModel.v. *)
From Coq Require Import List NArith ZArith Bool Lia.
From Coq Require Import ZifyBool ZifyNat ZifyN.
From Verif Require Import Base BaseLemmas ListLemmas VluModel VluSpec.
Open Scope list_scope.
Open Scope N_scope.

(** * Lines *)

Lemma lines_acc_free a : eol_free a -> forall cur s, lines_acc cur (a ++ s) = lines_acc (cur ++ a) s.
Proof.
  induction 1 as [|c a Hc Ha IH]; intros cur s; cbn [app lines_acc]; [rewrite app_nil_r; auto|].
  unfold is_eol in Hc. rewrite Hc. rewrite IH, <- app_assoc. auto.
Qed.

Lemma lines_free a : eol_free a -> lines a = [] /\ rest a = a.
Proof.
  intros H. unfold lines, rest. rewrite <- (app_nil_r a) at 1 2. rewrite lines_acc_free by auto. auto.
Qed.

Lemma lines_eol a c s : eol_free a -> is_eol c = true ->
  lines (a ++ c :: s) = a :: lines s /\ rest (a ++ c :: s) = rest s.
Proof.
  intros H Hc. unfold lines, rest. rewrite lines_acc_free by auto. cbn [app lines_acc].
  unfold is_eol in Hc. rewrite Hc. destruct (lines_acc [] s). auto.
Qed.

Lemma rest_free_acc s : forall cur, eol_free cur -> eol_free (snd (lines_acc cur s)).
Proof.
  induction s as [|c s IH]; intros cur H; cbn [lines_acc]; auto.
  destruct ((c =? 10) || (c =? 13)) eqn:E.
  - specialize (IH [] (Forall_nil _)). destruct (lines_acc [] s). auto.
  - apply IH. apply Forall_app. split; auto.
Qed.
Lemma rest_free s : eol_free (rest s).
Proof. apply rest_free_acc. constructor. Qed.

Lemma split_eol s : eol_free s \/ exists a c r, s = a ++ c :: r /\ eol_free a /\ is_eol c = true.
Proof.
  induction s as [|c s IH]; [left; constructor|]. destruct (is_eol c) eqn:E.
  - right. exists [], c, s. split; auto. split; auto. constructor.
  - destruct IH as [H|(a & d & r & -> & Ha & Hd)]; [left; constructor; auto|].
    right. exists (c :: a), d, r. split; auto. split; auto. constructor; auto.
Qed.

Lemma lines_app_n n : forall a b, (length a <= n)%nat ->
  lines (a ++ b) = lines a ++ lines (rest a ++ b) /\ rest (a ++ b) = rest (rest a ++ b).
Proof.
  induction n as [|n IH]; intros a b Hn.
  - destruct a; [auto|simpl in Hn; lia].
  - destruct (split_eol a) as [H|(x & c & r & -> & Hx & Hc)].
    + destruct (lines_free a H) as [-> ->]. auto.
    + rewrite <- app_assoc. cbn [app].
      destruct (lines_eol x c (r ++ b) Hx Hc) as [-> ->]. destruct (lines_eol x c r Hx Hc) as [-> ->].
      destruct (IH r b) as [-> ->]. { rewrite app_length in Hn. simpl in Hn. lia. } auto.
Qed.
Lemma lines_app a b : lines (a ++ b) = lines a ++ lines (rest a ++ b).
Proof. apply (lines_app_n (length a)). auto. Qed.
Lemma rest_app a b : rest (a ++ b) = rest (rest a ++ b).
Proof. apply (lines_app_n (length a)). auto. Qed.

Lemma short_pending n r t : eol_free r -> short n (r ++ t) -> len r < n.
Proof.
  intros Hr [Hl Hs]. destruct (split_eol t) as [Ht|(a & c & q & -> & Ha & Hc)].
  - assert (H : eol_free (r ++ t)) by (apply Forall_app; auto). destruct (lines_free _ H) as [_ E].
    rewrite E in Hs. rewrite len_app in Hs. lia.
  - rewrite app_assoc in Hl. destruct (lines_eol (r ++ a) c q) as [E _]; auto.
    { apply Forall_app; auto. } rewrite E in Hl. inversion Hl as [|? ? X]; subst.
    rewrite len_app in X. lia.
Qed.

Lemma short_tail n a b : short n (a ++ b) -> short n (rest a ++ b).
Proof.
  unfold short. rewrite lines_app, rest_app. rewrite Forall_app. tauto.
Qed.

Lemma rest_in s : forall c, In c (rest s) -> In c s.
Proof.
  intros c H. destruct (split_eol s) as [Hs|_].
  - destruct (lines_free s Hs) as [_ E]. rewrite E in H. auto.
  - unfold rest in H. assert (G : forall s cur, In c (snd (lines_acc cur s)) -> In c cur \/ In c s).
    { clear. induction s as [|d s IH]; intros cur H; cbn [lines_acc] in H; auto.
      destruct ((d =? 10) || (d =? 13)).
      - specialize (IH []). destruct (lines_acc [] s). cbn in *. destruct (IH H); auto. destruct H0.
      - apply IH in H. rewrite in_app_iff in H. simpl in *. tauto. }
    apply G in H. destruct H as [[]|H]; auto.
Qed.

Lemma textual_app a b : textual (a ++ b) <-> textual a /\ textual b.
Proof. unfold textual. rewrite in_app_iff. tauto. Qed.
Lemma textual_rest a : textual a -> textual (rest a).
Proof. unfold textual. intros H X. apply H, rest_in, X. Qed.

(** * LineUpProcess *)

Lemma find_eol_free p : textual p -> eol_free p -> find_eol p = None.
Proof.
  induction p as [|c p IH]; intros T H; auto. inversion H as [|? ? Hc Hp]; subst. change (is_eol c = false) in Hc. cbn [find_eol].
  destruct (N.eqb_spec c 0) as [->|]; auto. rewrite Hc, IH; auto. intros X. apply T. right. auto.
Qed.

Lemma find_eol_some a c q : ~ In 0 a -> c <> 0 -> eol_free a -> is_eol c = true -> find_eol (a ++ c :: q) = Some (a, q).
Proof.
  induction a as [|x a IH]; intros T Hz H Hc; cbn [app find_eol].
  - destruct (N.eqb_spec c 0); [congruence|]. rewrite Hc. auto.
  - inversion H as [|? ? Hx Ha]; subst. change (is_eol x = false) in Hx. destruct (N.eqb_spec x 0) as [->|]; [exfalso; apply T; left; auto|].
    rewrite Hx, IH; auto. intros X. apply T. right; auto.
Qed.

Lemma cstr_textual p : textual p -> cstr p = p.
Proof.
  induction p as [|c p IH]; intros T; auto. cbn [cstr]. destruct (N.eqb_spec c 0) as [->|]; [exfalso; apply T; left; auto|].
  rewrite IH; auto. intros X. apply T. right; auto.
Qed.

Lemma process_step {S} (func : S -> bytes -> S * Z) f bufl s done a c q :
  ~ In 0 a -> c <> 0 -> eol_free a -> is_eol c = true ->
  process_loop func (Datatypes.S f) bufl s done (a ++ c :: q) =
  let '(s', i) := func s a in
  if (i =? 0)%Z then process_loop func f bufl s' (done ++ a ++ [0]) q
  else Ok (s', mkV bufl (done ++ a ++ 0 :: q), i).
Proof.
  intros Ta Hz Ha Hc. assert (F := find_eol_some a c q Ta Hz Ha Hc).
  cbn [process_loop]. rewrite F. destruct a as [|x a']; cbn [app].
  - destruct (N.eqb_spec c 0); congruence.
  - destruct (N.eqb_spec x 0) as [->|]; auto. exfalso. apply Ta. left; auto.
Qed.

Lemma feed_step {S} (func : S -> bytes -> S * Z) f l s ptr : ptr <> [] ->
  feed_loop func (Datatypes.S f) l s ptr =
  let u := N.to_nat (N.min (len ptr) (v_bufl l - len (v_buf l))) in
  let* (r, i) := LineUpProcess func (mkV (v_bufl l) (v_buf l ++ firstn u ptr)) s in
  let '(s', l') := r in
  if (i =? 0)%Z then feed_loop func f l' s' (skipn u ptr) else Ok (s', l', i).
Proof. destruct ptr; [congruence|auto]. Qed.

Section Collect.
Variable stop : bytes -> Z.

Lemma upto_app a b : upto_stop stop (a ++ b) =
  let '(x, i) := upto_stop stop a in
  if (i =? 0)%Z then let '(y, j) := upto_stop stop b in (x ++ y, j) else (x, i).
Proof.
  induction a as [|l a IH]; cbn [app upto_stop]; [destruct (upto_stop stop b); auto|].
  destruct (stop l =? 0)%Z eqn:E.
  - rewrite IH. destruct (upto_stop stop a) as [x i]. destruct (i =? 0)%Z; auto.
    destruct (upto_stop stop b). auto.
  - rewrite E. auto.
Qed.

Lemma upto_zero a x : upto_stop stop a = (x, 0%Z) -> x = a.
Proof.
  revert x; induction a as [|l a IH]; intros x; cbn [upto_stop]; [intros [= <-]; auto|].
  destruct (stop l =? 0)%Z eqn:E.
  - destruct (upto_stop stop a) as [y i]. intros [= <- ->]. f_equal. auto.
  - intros [= <- H]. rewrite H in E. discriminate.
Qed.

Lemma process_spec bufl : forall fuel p acc done, textual p -> (length p < fuel)%nat ->
  exists v, process_loop (collect stop) fuel bufl acc done p =
    Ok (acc ++ fst (upto_stop stop (lines p)), v, snd (upto_stop stop (lines p))) /\
  (snd (upto_stop stop (lines p)) = 0%Z -> v = mkV bufl (rest p)).
Proof.
  induction fuel as [|f IH]; intros p acc done T Hf; [lia|].
  destruct (split_eol p) as [H|(a & c & q & -> & Ha & Hc)].
  - cbn [process_loop]. rewrite find_eol_free by auto. destruct (lines_free p H) as [-> ->]. cbn [upto_stop fst snd]. rewrite app_nil_r.
    destruct p as [|x p]; [eauto|]. destruct (N.eqb_spec x 0) as [->|]; [exfalso; apply T; left; auto|].
    rewrite cstr_textual by auto. eauto.
  - assert (Tq : textual q) by (apply textual_app in T; destruct T as [_ T]; intros X; apply T; right; auto).
    assert (Ta : ~ In 0 a) by (apply textual_app in T; destruct T; auto).
    assert (Hz : c <> 0). { apply textual_app in T. destruct T as [_ T]. intros ->. apply T. left; auto. }
    destruct (lines_eol a c q Ha Hc) as [-> ->]. cbn [upto_stop].
    destruct (IH q (acc ++ [a]) (done ++ a ++ [0]) Tq) as (v & E & Hv).
    { rewrite app_length in Hf. simpl in Hf. lia. }
    rewrite (process_step (collect stop)) by auto.
    change (collect stop acc a) with (acc ++ [a], stop a). cbn iota beta.
    destruct (stop a =? 0)%Z eqn:Es.
    + rewrite E. destruct (upto_stop stop (lines q)) as [y i]. cbn [fst snd] in *.
      exists v. split; auto. rewrite <- app_assoc. auto.
    + cbn [fst snd]. eexists. split; [reflexivity|]. intros H. rewrite H in Es. discriminate.
Qed.

Lemma LineUp_spec bufl b acc : textual b ->
  exists v, LineUpProcess (collect stop) (mkV bufl b) acc =
    Ok (acc ++ fst (upto_stop stop (lines b)), v, snd (upto_stop stop (lines b))) /\
  (snd (upto_stop stop (lines b)) = 0%Z -> v = mkV bufl (rest b)).
Proof. intros T. unfold LineUpProcess. cbn [v_buf v_bufl]. apply process_spec; auto. Qed.

(** * Feeding *)

Lemma feed_spec bufl : forall fuel r ptr acc, eol_free r -> textual (r ++ ptr) -> short bufl (r ++ ptr) ->
  (length ptr <= fuel)%nat ->
  exists v, feed_loop (collect stop) fuel (mkV bufl r) acc ptr =
    Ok (acc ++ fst (upto_stop stop (lines (r ++ ptr))), v, snd (upto_stop stop (lines (r ++ ptr)))) /\
  (snd (upto_stop stop (lines (r ++ ptr))) = 0%Z -> v = mkV bufl (rest (r ++ ptr))).
Proof.
  induction fuel as [|f IH]; intros r ptr acc Hr T Sh Hf.
  - destruct ptr; [|simpl in Hf; lia]. cbn [feed_loop]. rewrite app_nil_r. destruct (lines_free r Hr) as [-> ->].
    cbn. rewrite app_nil_r. eauto.
  - destruct ptr as [|c ptr'].
    { cbn [feed_loop]. rewrite app_nil_r. destruct (lines_free r Hr) as [-> ->]. cbn. rewrite app_nil_r. eauto. }
    remember (c :: ptr') as ptr eqn:Ep.
    rewrite feed_step by (rewrite Ep; discriminate). cbn [v_bufl v_buf]. cbv zeta.
    assert (Hl := short_pending _ _ _ Hr Sh).
    set (u := N.to_nat (N.min (len ptr) (bufl - len r))).
    assert (Hu : (0 < u)%nat). { subst u. rewrite Ep. rewrite len_cons. lia. }
    assert (Tu : textual (r ++ firstn u ptr) /\ textual (skipn u ptr)).
    { rewrite <- (firstn_skipn u ptr), app_assoc in T. apply textual_app in T. auto. }
    destruct Tu as [T1 T2].
    destruct (LineUp_spec bufl (r ++ firstn u ptr) acc T1) as (v & E & Hv).
    rewrite E. cbn [bind].
    assert (EQ : r ++ ptr = (r ++ firstn u ptr) ++ skipn u ptr) by (rewrite <- app_assoc, firstn_skipn; auto).
    rewrite EQ, (lines_app (r ++ firstn u ptr)), (rest_app (r ++ firstn u ptr)), upto_app.
    destruct (upto_stop stop (lines (r ++ firstn u ptr))) as [x i]. cbn [fst snd] in *.
    destruct (i =? 0)%Z eqn:Ei.
    + apply Z.eqb_eq in Ei. rewrite (Hv Ei).
      destruct (IH (rest (r ++ firstn u ptr)) (skipn u ptr) (acc ++ x)) as (v2 & E2 & Hv2).
      * apply rest_free.
      * apply textual_app. split; auto using textual_rest.
      * apply short_tail. rewrite <- EQ. auto.
      * rewrite skipn_length. lia.
      * rewrite E2. exists v2. destruct (upto_stop stop (lines (rest (r ++ firstn u ptr) ++ skipn u ptr))) as [y j].
        cbn [fst snd] in *. split; auto. rewrite <- app_assoc. auto.
    + exists v. cbn [fst snd]. split; auto. intros H. rewrite H in Ei. discriminate.
Qed.

Lemma feed_all_spec bufl : forall ps r acc, eol_free r -> textual (r ++ concat ps) -> short bufl (r ++ concat ps) ->
  Forall (fun p => p <> []) ps ->
  exists v, feed_all (fun l a p => VLU_Feed (collect stop) (length p) l a p) (mkV bufl r) acc ps =
    Ok (acc ++ fst (upto_stop stop (lines (r ++ concat ps))), v, snd (upto_stop stop (lines (r ++ concat ps)))) /\
  (snd (upto_stop stop (lines (r ++ concat ps))) = 0%Z -> v = mkV bufl (rest (r ++ concat ps))).
Proof.
  induction ps as [|p ps IH]; intros r acc Hr T Sh Hp; cbn [feed_all concat].
  - cbn [concat] in *. rewrite app_nil_r. destruct (lines_free r Hr) as [-> ->]. cbn. rewrite app_nil_r. eauto.
  - inversion Hp as [|? ? Hpn Hps]; subst. unfold VLU_Feed at 1.
    replace (0 <? len p) with true by (symmetry; apply N.ltb_lt; destruct p; [congruence|rewrite len_cons; lia]).
    cbn [guard bind concat]. cbn [concat] in T, Sh.
    rewrite app_assoc in T, Sh. rewrite app_assoc.
    assert (Sh1 : short bufl (r ++ p)).
    { destruct Sh as [A B]. rewrite lines_app in A. apply Forall_app in A. split; [tauto|].
      apply (short_pending bufl _ (concat ps)); [apply rest_free|]. split; [tauto|]. rewrite <- rest_app. auto. }
    apply textual_app in T. destruct T as [T1 T2].
    destruct (feed_spec bufl (length p) r p acc Hr T1 Sh1 (le_n _)) as (v & E & Hv).
    rewrite E. cbn [bind]. rewrite (lines_app (r ++ p)), (rest_app (r ++ p)), upto_app.
    destruct (upto_stop stop (lines (r ++ p))) as [x i]. cbn [fst snd] in *.
    destruct (i =? 0)%Z eqn:Ei.
    + apply Z.eqb_eq in Ei. rewrite (Hv Ei).
      destruct (IH (rest (r ++ p)) (acc ++ x)) as (v2 & E2 & Hv2); auto.
      * apply rest_free.
      * apply textual_app. split; auto using textual_rest.
      * apply short_tail. auto.
      * rewrite E2. exists v2. destruct (upto_stop stop (lines (rest (r ++ p) ++ concat ps))) as [y j].
        cbn [fst snd] in *. split; auto. rewrite <- app_assoc. auto.
    + exists v. cbn [fst snd]. split; auto. intros H. rewrite H in Ei. discriminate.
Qed.

(** * Reading *)

Lemma file_spec bufl cut : forall fuel r inp acc, eol_free r -> textual (r ++ inp) -> short bufl (r ++ inp) ->
  (length inp < fuel)%nat ->
  file_loop (collect stop) fuel cut (mkV bufl r) acc inp =
    Ok (acc ++ fst (upto_stop stop (lines (r ++ inp))),
        if (snd (upto_stop stop (lines (r ++ inp))) =? 0)%Z then (-2)%Z else snd (upto_stop stop (lines (r ++ inp)))).
Proof.
  induction fuel as [|f IH]; intros r inp acc Hr T Sh Hf; [lia|]. cbn [file_loop]. unfold VLU_Fd. cbn [v_bufl v_buf].
  assert (Hl := short_pending _ _ _ Hr Sh).
  set (u := N.to_nat (N.min (N.max 1 (cut f)) (bufl - len r))).
  assert (Hu : (0 < u)%nat) by lia.
  destruct inp as [|c inp'].
  { rewrite firstn_nil. cbn [bind]. rewrite app_nil_r. destruct (lines_free r Hr) as [-> _]. cbn. rewrite app_nil_r. auto. }
  remember (c :: inp') as inp eqn:Ep.
  assert (exists b bs, firstn u inp = b :: bs) as (b & bs & Eb).
  { rewrite Ep. destruct u; [lia|]. simpl. eauto. }
  rewrite Eb. rewrite <- Eb.
  assert (Tu : textual (r ++ firstn u inp) /\ textual (skipn u inp)).
  { rewrite <- (firstn_skipn u inp), app_assoc in T. apply textual_app in T. auto. }
  destruct Tu as [T1 T2].
  destruct (LineUp_spec bufl (r ++ firstn u inp) acc T1) as (v & E & Hv).
  rewrite E. cbn [bind].
  assert (EQ : r ++ inp = (r ++ firstn u inp) ++ skipn u inp) by (rewrite <- app_assoc, firstn_skipn; auto).
  rewrite EQ, (lines_app (r ++ firstn u inp)), upto_app.
  destruct (upto_stop stop (lines (r ++ firstn u inp))) as [x i]. cbn [fst snd] in *.
  destruct (i =? 0)%Z eqn:Ei.
  - apply Z.eqb_eq in Ei. rewrite (Hv Ei). rewrite IH.
    + destruct (upto_stop stop (lines (rest (r ++ firstn u inp) ++ skipn u inp))) as [y j].
      cbn [fst snd]. rewrite <- app_assoc. auto.
    + apply rest_free.
    + apply textual_app. split; auto using textual_rest.
    + apply short_tail. rewrite <- EQ. auto.
    + rewrite skipn_length. rewrite Ep in *. simpl length in *. lia.
  - cbn [fst snd]. rewrite Ei. auto.
Qed.

(** * Lines that do not fit *)

Lemma full_stuck bufl : forall fuel r acc ptr, eol_free r -> textual r -> len r = bufl -> ptr <> [] ->
  feed_loop (collect stop) fuel (mkV bufl r) acc ptr = Fuel.
Proof.
  induction fuel as [|f IH]; intros r acc ptr Hr T Hl Hp; destruct ptr as [|c ptr']; try congruence; auto.
  rewrite feed_step by auto. cbn [v_bufl v_buf]. cbv zeta. rewrite Hl, N.sub_diag, N.min_0_r. change (N.to_nat 0) with 0%nat.
  cbn [firstn skipn]. rewrite app_nil_r.
  destruct (LineUp_spec bufl r acc T) as (v & E & Hv). destruct (lines_free r Hr) as [El Er].
  rewrite El, Er in *. cbn [upto_stop fst snd] in *. rewrite E. cbn [bind]. change (0 =? 0)%Z with true. cbn iota.
  rewrite Hv by auto. rewrite app_nil_r. apply IH; auto.
Qed.

Lemma feed_long bufl fuel a c t acc : eol_free a -> textual a -> len a = bufl -> 0 < bufl ->
  VLU_Feed (collect stop) fuel (mkV bufl []) acc (a ++ c :: t) = Fuel.
Proof.
  intros Ha T Hl Hb. unfold VLU_Feed.
  replace (0 <? len (a ++ c :: t)) with true by (symmetry; apply N.ltb_lt; rewrite len_app, len_cons; lia).
  cbn [guard bind]. destruct fuel as [|f]; [destruct a; auto|].
  destruct a as [|x a']; [rewrite len_nil in Hl; lia|]. remember (x :: a') as a eqn:Ea.
  assert (E : feed_loop (collect stop) (S f) (mkV bufl []) acc (a ++ c :: t) =
     let* (r, i) := LineUpProcess (collect stop) (mkV bufl a) acc in
          let '(s', l') := r in
          if (i =? 0)%Z then feed_loop (collect stop) f l' s' (c :: t) else Ok (s', l', i)).
  { rewrite feed_step by (destruct a; discriminate). cbn [v_bufl v_buf]. cbv zeta.
    replace (N.to_nat (N.min (len (a ++ c :: t)) (bufl - len (@nil N)))) with (length a).
    - rewrite firstn_app_len, skipn_app_len. auto.
    - rewrite len_app, len_cons, len_nil, Hl. unfold len in Hl. lia. }
  rewrite E. destruct (LineUp_spec bufl a acc T) as (v & E1 & Hv). destruct (lines_free a Ha) as [El Er].
  rewrite El, Er in *. cbn [upto_stop fst snd] in *. rewrite E1. cbn [bind]. change (0 =? 0)%Z with true. cbn iota.
  rewrite Hv by auto. rewrite app_nil_r. apply full_stuck; auto. discriminate.
Qed.

Lemma file_long bufl cut : forall fuel r a t acc, eol_free (r ++ a) -> textual (r ++ a) -> len (r ++ a) = bufl ->
  (length a < fuel)%nat ->
  file_loop (collect stop) fuel cut (mkV bufl r) acc (a ++ t) = Ok (acc, (-2)%Z).
Proof.
  induction fuel as [|f IH]; intros r a t acc Hr T Hl Hf; [lia|]. cbn [file_loop]. unfold VLU_Fd. cbn [v_bufl v_buf].
  rewrite len_app in Hl.
  set (u := N.to_nat (N.min (N.max 1 (cut f)) (bufl - len r))).
  assert (Hu : (u <= length a)%nat) by (unfold len in *; lia).
  destruct a as [|x a'].
  - assert (u = 0%nat) by (simpl in Hu; lia). rewrite H. reflexivity.
  - remember (x :: a') as a eqn:Ea.
    assert (Hu1 : (0 < u)%nat). { unfold u. rewrite <- Hl. rewrite Ea, len_cons. lia. }
    assert (Ef : firstn u (a ++ t) = firstn u a).
    { rewrite firstn_app. replace (u - length a)%nat with 0%nat by lia. rewrite firstn_O, app_nil_r. auto. }
    assert (Es : skipn u (a ++ t) = skipn u a ++ t).
    { rewrite skipn_app. replace (u - length a)%nat with 0%nat by lia. auto. }
    rewrite Ef, Es.
    assert (exists b bs, firstn u a = b :: bs) as (b & bs & Eb).
    { rewrite Ea. destruct u; [lia|]. simpl. eauto. }
    rewrite Eb, <- Eb.
    assert (EQ : r ++ a = (r ++ firstn u a) ++ skipn u a) by (rewrite <- app_assoc, firstn_skipn; auto).
    assert (H1 : eol_free (r ++ firstn u a)). { rewrite EQ in Hr. apply Forall_app in Hr. tauto. }
    assert (T1 : textual (r ++ firstn u a)). { rewrite EQ in T. apply textual_app in T. tauto. }
    destruct (LineUp_spec bufl (r ++ firstn u a) acc T1) as (v & E1 & Hv). destruct (lines_free _ H1) as [El Er].
    rewrite El, Er in *. cbn [upto_stop fst snd] in *. rewrite E1. cbn [bind]. change (0 =? 0)%Z with true. cbn iota.
    rewrite Hv by auto. rewrite app_nil_r. apply IH.
    + rewrite <- EQ; auto.
    + rewrite <- EQ; auto.
    + rewrite <- EQ. rewrite len_app. auto.
    + rewrite skipn_length. lia.
Qed.
End Collect.

Lemma feed_pieces stop bufsize ps : textual (concat ps) -> short (v_bufl (VLU_New bufsize)) (concat ps) ->
  Forall (fun p => p <> []) ps ->
  exists v, feed_all (fun l a p => VLU_Feed (collect stop) (length p) l a p) (VLU_New bufsize) [] ps =
    Ok (fst (upto_stop stop (lines (concat ps))), v, snd (upto_stop stop (lines (concat ps)))) /\
  (snd (upto_stop stop (lines (concat ps))) = 0%Z -> v_buf v = rest (concat ps)).
Proof.
  intros T Sh Hp. destruct (feed_all_spec stop (v_bufl (VLU_New bufsize)) ps [] []) as (v & E & Hv); auto.
  { constructor. } exists v. split; auto. intros H. rewrite Hv; auto.
Qed.

Lemma file_lines stop bufsize cut fuel inp : textual inp -> short (v_bufl (VLU_New bufsize)) inp ->
  (length inp < fuel)%nat ->
  VLU_File (collect stop) fuel cut bufsize [] inp =
    Ok (fst (upto_stop stop (lines inp)),
        if (snd (upto_stop stop (lines inp)) =? 0)%Z then (-2)%Z else snd (upto_stop stop (lines inp))).
Proof.
  intros T Sh Hf. unfold VLU_File, VLU_New. rewrite (file_spec stop _ cut fuel [] inp []); auto. constructor.
Qed.

Lemma feed_hangs stop bufsize fuel a c t : 1 < bufsize -> eol_free a -> textual a -> len a = bufsize - 1 ->
  VLU_Feed (collect stop) fuel (VLU_New bufsize) [] (a ++ c :: t) = Fuel.
Proof.
  intros Hb Ha T Hl. unfold VLU_New. replace (bufsize =? 0) with false by (symmetry; apply N.eqb_neq; lia).
  apply feed_long; auto. lia.
Qed.

Lemma file_ends stop bufsize cut fuel a t : 0 < bufsize -> eol_free a -> textual a -> len a = bufsize - 1 ->
  (length a < fuel)%nat ->
  VLU_File (collect stop) fuel cut bufsize [] (a ++ t) = Ok ([], (-2)%Z).
Proof.
  intros Hb Ha T Hl Hf. unfold VLU_File, VLU_New. replace (bufsize =? 0) with false by (symmetry; apply N.eqb_neq; lia).
  apply file_long; auto.
Qed.

Lemma nul_cut : exists ps1 ps2, concat ps1 = concat ps2 /\
  (exists v, feed_all (fun l a p => VLU_Feed (collect (fun _ => 0%Z)) (length p) l a p) (VLU_New 256) [] ps1 = Ok ([], v, 0%Z)) /\
  (exists v, feed_all (fun l a p => VLU_Feed (collect (fun _ => 0%Z)) (length p) l a p) (VLU_New 256) [] ps2 =
     Ok ([[97; 98; 99; 100]; [101; 102]], v, 0%Z)).
Proof.
  exists [[97; 98; 0; 99; 100; 10; 101; 102; 10]], [[97; 98; 0]; [99; 100; 10; 101; 102; 10]].
  split; [reflexivity|]. split; eexists; vm_compute; reflexivity.
Qed.
