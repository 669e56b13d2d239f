(* Proofs about dates. *)
From Coq Require Import String Lia.
From Verif Require Import Base BaseLemmas SiloNameProofs HeaderModel HeaderSpec HeaderProofs StoreSpec DateModel DateSpec.
Open Scope string_scope.
Open Scope list_scope.
Open Scope N_scope.

(** * The calendar *)
Definition lp (y : N) : N := if leap y then 1 else 0.
Lemma feb y : february y = 28 + lp y.
Proof.
  unfold february, lp, leap. destruct (y mod 400 =? 0) eqn:A, (y mod 100 =? 0) eqn:B, (y mod 4 =? 0) eqn:C; cbn [negb andb orb]; try reflexivity;
    rewrite ?N.eqb_eq, ?N.eqb_neq in *; exfalso; lia.
Qed.
Definition pd (x : N * N * N) (n : N) : Prop :=
  let '(y, m, d) := x in
  1970 <= y /\ 1 <= m <= 12 /\ 1 <= d <= month_days y m /\
  yday y m d + (y - 1970) * 365 + (y - 1969) / 4 + (y - 1601) / 400 = n + (y - 1901) / 100.
Lemma twelve m : 1 <= m <= 12 -> m = 1 \/ m = 2 \/ m = 3 \/ m = 4 \/ m = 5 \/ m = 6 \/ m = 7 \/ m = 8 \/ m = 9 \/ m = 10 \/ m = 11 \/ m = 12.
Proof. lia. Qed.
Lemma mdays y m : 1 <= m <= 12 -> nth (N.to_nat (m - 1)) (months y) 0 = month_days y m.
Proof.
  intros H. apply twelve in H. unfold months. rewrite feb. unfold lp.
  repeat destruct H as [->|H]; [..|subst m]; cbn; try reflexivity. destruct (leap y); reflexivity.
Qed.
Lemma yday_next y m : 1 <= m < 12 -> yday y (m + 1) 1 = yday y m (month_days y m) + 1.
Proof.
  intros H. assert (X : 1 <= m <= 12) by lia. apply twelve in X. unfold yday, months. rewrite feb. unfold lp.
  repeat destruct X as [->|X]; [..|subst m; lia]; cbn; destruct (leap y); reflexivity.
Qed.
Lemma yday_last y : yday y 12 (month_days y 12) = 364 + lp y.
Proof. unfold yday, months. rewrite feb. unfold lp. cbn. destruct (leap y); reflexivity. Qed.
Lemma leaps y : 1970 <= y -> (y + 1 - 1969) / 4 + (y + 1 - 1601) / 400 + (y - 1901) / 100 = (y - 1969) / 4 + (y - 1601) / 400 + (y + 1 - 1901) / 100 + lp y.
Proof.
  intros H.
  assert (A : (y + 1 - 1969) / 4 = (y - 1969) / 4 + (if y mod 4 =? 0 then 1 else 0)) by (destruct (y mod 4 =? 0) eqn:E; rewrite ?N.eqb_eq, ?N.eqb_neq in E; lia).
  assert (B : (y + 1 - 1901) / 100 = (y - 1901) / 100 + (if y mod 100 =? 0 then 1 else 0)) by (destruct (y mod 100 =? 0) eqn:E; rewrite ?N.eqb_eq, ?N.eqb_neq in E; lia).
  assert (C : (y + 1 - 1601) / 400 = (y - 1601) / 400 + (if y mod 400 =? 0 then 1 else 0)) by (destruct (y mod 400 =? 0) eqn:E; rewrite ?N.eqb_eq, ?N.eqb_neq in E; lia).
  rewrite A, B, C. assert (F := feb y). unfold february in F.
  destruct (y mod 400 =? 0) eqn:D, (y mod 100 =? 0) eqn:E, (y mod 4 =? 0) eqn:G; try lia; rewrite ?N.eqb_eq, ?N.eqb_neq in *; exfalso; lia.
Qed.
Lemma mdays_pos y m : 28 <= month_days y m <= 31.
Proof. unfold month_days. destruct (leap y); repeat match goal with |- context [match ?x with _ => _ end] => destruct x end; lia. Qed.
Lemma pd_next x n : pd x n -> pd (next_day x) (N.succ n).
Proof.
  destruct x as [[y m] d]. intros (Y & M & D & E). unfold next_day.
  destruct (d <? month_days y m) eqn:L; [apply N.ltb_lt in L|apply N.ltb_ge in L].
  - repeat split; try lia. unfold yday in *. lia.
  - assert (d = month_days y m) by lia. subst d. destruct (m <? 12) eqn:K; [apply N.ltb_lt in K|apply N.ltb_ge in K].
    + repeat split; try lia. { assert (X := mdays_pos y (m + 1)). lia. }
      rewrite yday_next by lia. lia.
    + assert (m = 12) by lia. subst m. rewrite yday_last in E. assert (X := leaps y Y).
      repeat split; try lia. { cbn. lia. }
      change (yday (y + 1) 1 1) with 0. lia.
Qed.
Lemma pd_day n : pd (day n) n.
Proof.
  unfold day. induction n as [|n IH] using N.peano_ind; [cbn; repeat split; discriminate|].
  rewrite N.iter_succ. apply pd_next, IH.
Qed.
Lemma yday_le y m d : 1 <= m <= 12 -> 1 <= d <= month_days y m -> yday y m d <= 364 + lp y.
Proof.
  intros M D. assert (S : fold_right N.add 0 (firstn (N.to_nat (m - 1)) (months y)) + month_days y m <= 365 + lp y).
  { apply twelve in M. unfold months. rewrite feb. unfold month_days, lp.
    repeat destruct M as [->|M]; [..|subst m]; destruct (leap y); vm_compute; discriminate. }
  unfold yday. lia.
Qed.
Lemma pd_9999 y m d n : pd (y, m, d) n -> (y <= 9999 <-> n < 2932897).
Proof.
  intros (Y & M & D & E).
  assert (B := yday_le y m d M D). assert (B' : lp y <= 1) by (unfold lp; destruct (leap y); lia).
  split; intros H.
  - destruct (N.eq_dec y 9999) as [->|]; [|lia].
    change (lp 9999) with 0 in B.
    change ((9999 - 1969) / 4) with 2007 in E. change ((9999 - 1601) / 400) with 20 in E. change ((9999 - 1901) / 100) with 80 in E. lia.
  - destruct (N.le_gt_cases y 9999); [auto|exfalso].
    destruct (N.eq_dec y 10000) as [->|]; [|lia].
    change ((10000 - 1969) / 4) with 2007 in E. change ((10000 - 1601) / 400) with 20 in E. change ((10000 - 1901) / 100) with 80 in E. lia.
Qed.

(** * Days in order *)
Definition dlt (a b : N * N * N) : Prop :=
  let '(y, m, d) := a in let '(y', m', d') := b in y < y' \/ y = y' /\ (m < m' \/ m = m' /\ d < d').
Lemma dlt_trans a b c : dlt a b -> dlt b c -> dlt a c.
Proof. destruct a as [[? ?] ?], b as [[? ?] ?], c as [[? ?] ?]. unfold dlt. lia. Qed.
Lemma dlt_next x : dlt x (next_day x).
Proof.
  destruct x as [[y m] d]. unfold next_day. destruct (d <? _); [cbn; lia|]. destruct (m <? 12); cbn; lia.
Qed.
Lemma dlt_day n n' : n < n' -> dlt (day n) (day n').
Proof.
  induction n' as [|k IH] using N.peano_ind; intros H; [lia|]. unfold day in *. rewrite N.iter_succ.
  destruct (N.eq_dec n k) as [->|]; [apply dlt_next|]. eapply dlt_trans; [apply IH; lia|apply dlt_next].
Qed.

(** * Digits *)
Lemma digits_len k : forall n, List.length (digits k n) = k.
Proof. induction k as [|k IH]; intros n; cbn [digits]; [auto|]. rewrite app_length, IH. cbn. lia. Qed.
Lemma decpad2 n : n < 100 -> decpad 2 n = digits 2 n.
Proof.
  intros H. unfold decpad. destruct (N.lt_ge_cases n 10).
  - rewrite dec_small by auto. cbn [digits app]. replace (n / 10) with 0 by lia. rewrite (N.mod_small n) by lia. reflexivity.
  - rewrite dec_two by lia. cbn [digits app]. rewrite (N.mod_small (n / 10)) by lia. reflexivity.
Qed.
Lemma dec_step n : 10 <= n -> dec n = dec (n / 10) ++ [48 + n mod 10].
Proof.
  intros H. apply (f_equal (fun x => x)). unfold dec at 1. cbn [dec_aux].
  replace (n <? 10) with false by (symmetry; apply N.ltb_ge; lia). rewrite dec_aux_app.
  f_equal.
  assert (G : forall f f' m, m < 10 ^ N.of_nat f -> m < 10 ^ N.of_nat f' -> (0 < f)%nat -> (0 < f')%nat -> dec_aux f m [] = dec_aux f' m []).
  { induction f as [|f IH]; intros f' m A B P P'; [lia|]. destruct f' as [|f']; [lia|]. cbn [dec_aux].
    destruct (m <? 10) eqn:E; [auto|]. apply N.ltb_ge in E. rewrite (dec_aux_app f), (dec_aux_app f').
    rewrite Nat2N.inj_succ, N.pow_succ_r' in A, B. f_equal.
    destruct f as [|f]; [cbn in A; lia|]. destruct f' as [|f']; [cbn in B; lia|].
    apply IH; lia. }
  unfold dec. apply G.
  - assert (X := dec_fuel n). rewrite Nat2N.inj_succ, N.pow_succ_r' in X. lia.
  - apply dec_fuel.
  - assert (X := N.log2_le_mono 2 n). change (N.log2 2) with 1 in X. lia.
  - lia.
Qed.
Lemma dec4 n : 1000 <= n <= 9999 -> dec n = digits 4 n.
Proof.
  intros H. rewrite dec_step by lia. rewrite dec_step by lia. rewrite dec_step by lia.
  rewrite dec_small by lia. cbn [digits app].
  rewrite (N.mod_small (n / 10 / 10 / 10)) by lia. reflexivity.
Qed.
Lemma dec5 n : 10000 <= n -> 5 <= len (dec n).
Proof.
  intros H. rewrite dec_step by lia. rewrite dec_step by lia. rewrite dec_step by lia. rewrite dec_step by lia.
  assert (X := dec_nonempty (n / 10 / 10 / 10 / 10)). unfold len. rewrite !app_length.
  destruct (dec (n / 10 / 10 / 10 / 10)); [congruence|cbn [List.length]; lia].
Qed.
Lemma digits_lex k : forall a b, a < 10 ^ N.of_nat k -> b < 10 ^ N.of_nat k -> lex (digits k a) (digits k b) = (a ?= b).
Proof.
  induction k as [|k IH]; intros a b A B.
  - cbn in *. replace a with 0 by lia. replace b with 0 by lia. reflexivity.
  - cbn [digits]. rewrite Nat2N.inj_succ, N.pow_succ_r' in A, B. rewrite lex_app by (rewrite !digits_len; auto).
    rewrite IH by lia. cbn [lex].
    destruct (N.compare_spec (a / 10) (b / 10)) as [E|E|E]; symmetry.
    + destruct (N.compare_spec (48 + a mod 10) (48 + b mod 10)); [apply N.compare_eq_iff|apply N.compare_lt_iff|apply N.compare_gt_iff]; lia.
    + apply N.compare_lt_iff. lia.
    + apply N.compare_gt_iff. lia.
Qed.

(** * The text *)
Lemma text_iso t y m d : day (t / 86400) = (y, m, d) -> y <= 9999 ->
  strftime (gmtime_r t) = iso y m d (t / 3600 mod 24) (t / 60 mod 60) (t mod 60).
Proof.
  intros E Y. assert (P := pd_day (t / 86400)). rewrite E in P. destruct P as (Y0 & M & D & _). assert (X := mdays_pos y m).
  unfold strftime, gmtime_r, iso. cbn [tm_day tm_hour tm_min tm_sec]. rewrite E.
  rewrite dec4 by lia. rewrite !decpad2 by lia. reflexivity.
Qed.
Lemma iso_len y m d hh mi ss : len (iso y m d hh mi ss) = 20.
Proof. unfold len, iso. rewrite !app_length, !digits_len. reflexivity. Qed.
Lemma date_iso t : t < year_10000 -> exists y m d, day (t / 86400) = (y, m, d) /\ pd (y, m, d) (t / 86400) /\ y <= 9999 /\
  Date_Text t = Ok (iso y m d (t / 3600 mod 24) (t / 60 mod 60) (t mod 60)).
Proof.
  intros H. unfold year_10000 in H. assert (P := pd_day (t / 86400)). destruct (day (t / 86400)) as [[y m] d] eqn:E.
  assert (Y : y <= 9999) by (apply (pd_9999 y m d _ P); lia).
  exists y, m, d. split; [auto|]. split; [auto|]. split; [auto|]. unfold Date_Text. rewrite (text_iso t y m d) by auto. rewrite iso_len. reflexivity.
Qed.
Lemma date_good t : t < year_10000 -> exists text, Date_Text t = Ok text /\ stands_for text t.
Proof.
  intros H. destruct (date_iso t H) as (y & m & d & E & P & Y & T). eexists. split; [exact T|].
  destruct P as (Y0 & M & D & Q). exists y, m, d, (t / 3600 mod 24), (t / 60 mod 60), (t mod 60).
  rewrite mdays by auto. repeat split; auto; try lia. unfold posix.
  assert (S : t = t / 86400 * 86400 + t / 3600 mod 24 * 3600 + t / 60 mod 60 * 60 + t mod 60) by lia.
  lia.
Qed.
Lemma date_ends t : year_10000 <= t -> Date_Text t = Abort.
Proof.
  intros H. unfold year_10000 in H. assert (P := pd_day (t / 86400)). destruct (day (t / 86400)) as [[y m] d] eqn:E.
  assert (Y : ~ y <= 9999) by (rewrite (pd_9999 y m d _ P); lia). destruct P as (Y0 & M & D & _). assert (X := mdays_pos y m).
  unfold Date_Text, strftime, gmtime_r. cbn [tm_day tm_hour tm_min tm_sec]. rewrite E. rewrite !decpad2 by lia.
  match goal with |- (if ?c then _ else _) = _ => assert (c = false) as -> end; [|auto].
  apply N.eqb_neq. assert (Z := dec5 y). unfold len in *. rewrite !app_length, !digits_len. cbn [str List.length]. lia.
Qed.
Lemma date_order t t' a a' : t < t' -> Date_Text t = Ok a -> Date_Text t' = Ok a' -> lex a a' = Lt.
Proof.
  intros L A A'.
  assert (H' : t' < year_10000) by (destruct (N.lt_ge_cases t' year_10000) as [|G]; [auto|rewrite date_ends in A' by auto; discriminate]).
  destruct (date_iso t ltac:(lia)) as (y & m & d & E & P & Y & T). destruct (date_iso t' H') as (y' & m' & d' & E' & P' & Y' & T').
  rewrite T in A. rewrite T' in A'. injection A as <-. injection A' as <-.
  destruct P as (_ & M & D & _), P' as (_ & M' & D' & _). assert (X := mdays_pos y m). assert (X' := mdays_pos y' m').
  assert (K : dlt (y, m, d) (y', m', d') \/ (y, m, d) = (y', m', d') /\ t / 86400 = t' / 86400).
  { destruct (N.eq_dec (t / 86400) (t' / 86400)) as [Q|]; [right; split; congruence|left]. rewrite <- E, <- E'. apply dlt_day. lia. }
  unfold iso.
  assert (W : forall k x x' s r r', x < 10 ^ N.of_nat k -> x' < 10 ^ N.of_nat k ->
    x < x' \/ x = x' /\ lex r r' = Lt -> lex (digits k x ++ [s] ++ r) (digits k x' ++ [s] ++ r') = Lt).
  { intros k x x' s r r' B B' C. rewrite lex_app by (rewrite !digits_len; auto). rewrite digits_lex by auto.
    destruct C as [C|[-> C]]; [apply N.compare_lt_iff in C; rewrite C; auto|].
    rewrite N.compare_refl. cbn [app lex]. rewrite N.compare_refl. auto. }
  apply W; [cbn; lia..|]. destruct K as [K|[K Q]].
  - cbn in K. destruct K as [K|[-> K]]; [left; auto|right; split; auto].
    apply W; [cbn; lia..|]. destruct K as [K|[-> K]]; [left; auto|right; split; auto].
    apply W; [cbn; lia..|]. left; auto.
  - injection K as -> -> ->. right. split; auto. apply W; [cbn; lia..|]. right. split; auto. apply W; [cbn; lia..|]. right. split; auto.
    apply W; [cbn; lia..|].
    assert (U : forall x, x / 86400 = x / 3600 / 24) by (intros x; rewrite N.div_div by lia; reflexivity).
    assert (V : forall x, x / 3600 = x / 60 / 60) by (intros x; rewrite N.div_div by lia; reflexivity).
    assert (Q1 : t / 60 <= t' / 60) by (apply N.div_le_mono; lia).
    assert (Q2 : t / 3600 <= t' / 3600) by (apply N.div_le_mono; lia). rewrite !U in Q. clear U H' T T' E E'.
    destruct (N.eq_dec (t / 3600 mod 24) (t' / 3600 mod 24)) as [Q3|]; [rewrite Q3; right; split; auto|left; clear V Q1; lia].
    assert (Q4 : t / 3600 = t' / 3600) by (clear V Q1; lia). rewrite !V in Q4. clear V Q Q2 Q3.
    apply W; [cbn; lia..|].
    destruct (N.eq_dec (t / 60 mod 60) (t' / 60 mod 60)) as [Q5|]; [rewrite Q5; right; split; auto|left; lia].
    assert (Q6 : t / 60 = t' / 60) by lia. apply W; [cbn; lia..|]. left. clear Q4 Q5. lia.
Qed.

(** * One date for a time *)
Lemma yday_mono y m m' d d' : 1 <= m -> m' <= 12 -> m < m' -> 1 <= d <= month_days y m -> 1 <= d' -> yday y m d < yday y m' d'.
Proof.
  intros A B L D D'. assert (K : yday y m d <= yday y m (month_days y m)) by (unfold yday; lia).
  assert (K' : yday y m' 1 <= yday y m' d') by (unfold yday; lia).
  assert (G : forall k, m < k -> k <= 12 -> yday y m (month_days y m) < yday y k 1).
  { intros k. induction k as [|k IH] using N.peano_ind; intros H1 H2; [lia|]. rewrite <- N.add_1_r, yday_next by lia.
    destruct (N.eq_dec m k) as [->|]; [lia|]. assert (X := IH ltac:(lia) ltac:(lia)).
    assert (yday y k 1 <= yday y k (month_days y k)) by (assert (Z := mdays_pos y k); unfold yday; lia). lia. }
  assert (X := G m' L B). lia.
Qed.
Lemma pd_mono x x' n n' : pd x n -> pd x' n' -> dlt x x' -> n < n'.
Proof.
  destruct x as [[y m] d], x' as [[y' m'] d']. intros (Y & M & D & E) (Y' & M' & D' & E') [L|[<- [L|[<- L]]]].
  - assert (B := yday_le y m d M D). assert (X := leaps y Y).
    assert (B' : lp y <= 1) by (unfold lp; destruct (leap y); lia).
    destruct (N.eq_dec y' (y + 1)) as [->|]; [lia|]. clear X. lia.
  - assert (X := yday_mono y m m' d d'). lia.
  - unfold yday in *. lia.
Qed.
Lemma pd_inj x x' n : pd x n -> pd x' n -> x = x'.
Proof.
  intros P P'. assert (T : dlt x x' \/ dlt x' x \/ x = x').
  { destruct x as [[y m] d], x' as [[y' m'] d']. cbn.
    destruct (N.lt_total y y') as [|[<-|]]; [tauto| |tauto]. destruct (N.lt_total m m') as [|[<-|]]; [tauto| |tauto].
    destruct (N.lt_total d d') as [|[<-|]]; tauto. }
  destruct T as [T|[T|T]]; [apply (pd_mono x x' n n P P') in T; lia|apply (pd_mono x' x n n P' P) in T; lia|auto].
Qed.
Lemma date_only text t : stands_for text t -> Date_Text t = Ok text.
Proof.
  intros (y & m & d & hh & mi & ss & -> & Y & M & D & H1 & H2 & H3 & P). rewrite mdays in D by auto. unfold posix in P.
  set (k := yday y m d + (y - 1970) * 365 + (y - 1969) / 4 + (y - 1601) / 400 - (y - 1901) / 100).
  assert (K : pd (y, m, d) k).
  { repeat split; try lia. }
  assert (S : t = k * 86400 + hh * 3600 + mi * 60 + ss) by (destruct K as (_ & _ & _ & K); lia).
  assert (Q : t / 86400 = k) by (clear P K; clearbody k; lia).
  assert (R1 : t / 3600 mod 24 = hh) by (clear P K Q; clearbody k; lia).
  assert (R2 : t / 60 mod 60 = mi) by (clear P K Q R1; clearbody k; lia).
  assert (R3 : t mod 60 = ss) by (clear P K Q R1 R2; clearbody k; lia).
  assert (B : t < year_10000) by (assert (X := pd_9999 y m d k K); unfold year_10000; clear P K; clearbody k; lia).
  destruct (date_iso t B) as (y' & m' & d' & _ & P' & _ & T). rewrite Q in P'.
  assert (X := pd_inj _ _ _ P' K). injection X as -> -> ->. rewrite T, R1, R2, R3. reflexivity.
Qed.
Lemma date_iff text t : stands_for text t <-> Date_Text t = Ok text.
Proof.
  split; [apply date_only|]. intros E. destruct (N.lt_ge_cases t year_10000) as [H|H].
  - destruct (date_good t H) as (x & E' & S). congruence.
  - rewrite date_ends in E by auto. discriminate.
Qed.
Lemma date_is_ok t text : Date_Text t = Ok text -> date_ok text.
Proof.
  intros E. apply date_iff in E. destruct E as (y & m & d & hh & mi & ss & -> & _).
  assert (G : Forall (fun c => c = 45 \/ c = 84 \/ c = 90 \/ is_digit c = true \/ c = 58) (iso y m d hh mi ss)).
  { assert (Z : forall k n, Forall (fun c => c = 45 \/ c = 84 \/ c = 90 \/ is_digit c = true \/ c = 58) (digits k n)).
    { induction k as [|k IH]; intros n; cbn [digits]; [constructor|]. apply Forall_app. split; [auto|]. constructor; [|auto]. right; right; right; left. unfold is_digit. lia. }
    unfold iso. do 11 (apply Forall_app; split; [first [apply Z|constructor; [|constructor]; cbn; auto 8]|]).
    constructor; [|constructor]; cbn; auto 8. }
  split; [apply iso_len|]. rewrite Forall_forall in G. split.
  - split; intros I; apply G in I; destruct I as [I|[I|[I|[I|I]]]]; discriminate I.
  - apply Forall_forall. intros c I. apply G in I. unfold is_digit in I. lia.
Qed.
Lemma date_case : Date_Text 951782400 = Ok (str "2000-02-29T00:00:00Z") /\ Date_Text 0 = Ok (str "1970-01-01T00:00:00Z").
Proof. split; vm_compute; reflexivity. Qed.
Lemma date_written t : t < year_10000 -> exists text, Date_Text t = Ok text.
Proof. intros H. destruct (date_good t H) as (x & E & _). eauto. Qed.
Lemma date_sorts t t' a a' : Date_Text t = Ok a -> Date_Text t' = Ok a' -> lex a a' = (t ?= t').
Proof.
  intros E E'. destruct (N.compare_spec t t') as [<-|L|L].
  - rewrite E in E'. injection E' as <-. apply lex_refl.
  - eapply date_order; eauto.
  - rewrite lex_antisym. rewrite (date_order t' t a' a L E' E). reflexivity.
Qed.
Lemma date_read text t t' : Date_Text t = Ok text -> Date_Text t' = Ok text -> t = t'.
Proof. intros E E'. apply N.compare_eq_iff. rewrite <- (date_sorts _ _ _ _ E E'). apply lex_refl. Qed.

(** * The date in a header *)
Lemma hops_app : forall a b hd, run_hops hd (a ++ b) = let* h := run_hops hd a in run_hops h b.
Proof.
  induction a as [|o a IH]; intros b hd; [reflexivity|]. destruct o as [n v|n]; cbn [app run_hops].
  - destruct (Header_Set hd n v); cbn; auto.
  - destruct (Header_Delete hd n); cbn; auto.
Qed.
Lemma outcome_cut : forall a n v b d, outcome d (a ++ HSet n v :: b) n = outcome (Some v) b n.
Proof.
  induction a as [|o a IH]; intros n v b d; cbn [app outcome]; [|destruct o; apply IH].
  destruct (list_eq_dec N.eq_dec (lower n) (lower n)); [reflexivity|congruence].
Qed.
Lemma outcome_other : forall b n d, Forall (fun o => lower (hop_name o) <> lower n) b -> outcome d b n = d.
Proof.
  induction b as [|o b IH]; intros n d F; [reflexivity|]. inversion F as [|? ? A B]; subst.
  destruct o as [m v|m]; cbn [outcome hop_name] in *; destruct (list_eq_dec N.eq_dec (lower m) (lower n)); try contradiction; apply IH; auto.
Qed.
Lemma date_kept prefix id_size id before after t :
  clean_prefix prefix -> clean_id id -> Forall (fun c => is_graph c = true) id -> len id = id_size ->
  Forall (fun o => ok_name (hop_name o) /\ match o with HSet n v => clean n /\ clean v | HDel _ => True end) (before ++ after) ->
  Forall (fun o => lower (hop_name o) <> lower (str "WARC-Date")) after -> t < year_10000 ->
  exists h1 h2 h3 h4 text, run_hops (Header_New id_size) before = Ok h1 /\ Header_Set_Date t h1 = Ok h2 /\
    run_hops h2 after = Ok h3 /\ Header_Set_Id id_size h3 id = Ok h4 /\
    Header_Parse prefix (Header_Serialize prefix h4) = Ok h4 /\ Header_Get h4 (str "WARC-Date") = Some text /\ stands_for text t.
Proof.
  intros P I G L F NA T. destruct (date_good t T) as (text & D & S). destruct (date_is_ok t text D) as (_ & CT & _).
  set (ops := before ++ HSet (str "WARC-Date") text :: after).
  assert (FO : Forall (fun o => ok_name (hop_name o) /\ match o with HSet n v => clean n /\ clean v | HDel _ => True end) ops).
  { apply Forall_app in F. destruct F as [F1 F2]. apply Forall_app. split; [auto|]. constructor; [|auto].
    split; [split; vm_compute; intuition discriminate|]. split; [split; vm_compute; intuition discriminate|auto]. }
  assert (O1 : Forall (fun o => ok_name (hop_name o)) ops) by (eapply Forall_impl; [|exact FO]; cbn; tauto).
  assert (O2 : Forall (fun o => match o with HSet n v => clean n /\ clean v | HDel _ => True end) ops) by (eapply Forall_impl; [|exact FO]; cbn; tauto).
  destruct (hops_roundtrip prefix id_size id ops P I G L O1 O2) as (hd & hd' & R & SI & _ & FE & RT).
  destruct (hops_map id_size ops O1) as (hx & R' & M & _). rewrite R in R'. injection R' as <-.
  pose proof R as R0. unfold ops in R0. rewrite hops_app in R0.
  destruct (run_hops (Header_New id_size) before) as [h1| | |] eqn:E1; try discriminate R0. cbn [bind run_hops] in R0.
  destruct (Header_Set h1 (str "WARC-Date") text) as [h2| | |] eqn:E2; try discriminate R0. cbn [bind] in R0.
  exists h1, h2, hd, hd', text. split; [auto|]. split; [unfold Header_Set_Date; rewrite D; exact E2|]. split; [auto|]. split; [auto|]. split; [auto|].
  split; [|auto]. unfold Header_Get. rewrite FE. fold (Header_Get hd (str "WARC-Date")). rewrite M. unfold ops. rewrite outcome_cut. apply outcome_other. auto.
Qed.
