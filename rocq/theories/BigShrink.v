(* A run of the model in which a store aborts half way: some bytes which fill more
   than a silo, and then a megabyte of zeros. *)
From Coq Require Import String Permutation.
From Coq Require Import ZifyBool ZifyNat ZifyN.
From Verif Require Import Base RoomSpec BaseLemmas ListLemmas IndexModel IndexSpec HeaderModel HeaderSpec HeaderProofs
  InflateSpec InflateProofs GzipModel GzipSpec GzipProofs ProgModel StoreModel StoreSpec StoreSysModel StoreWp StoreCalls StoreSys StoreHdr
  StoreWrite StoreCommit StoreJob StoreMain StoreGet StoreWorld StoreAgain LiveSpec LiveMain LiveJob LiveEnd BigSpec BigMain BigJob
  StoreToy StoreWit StoreRuns StoreEnd LiveToy BigToy LiveRuns BigEnd BigDie.
Open Scope string_scope.
Open Scope list_scope.
Open Scope N_scope.

Definition KD : conf := let K := toy_conf 49999 in mkConf (c_prefix K) (c_idsize K) (c_max K) (c_base K) (c_wbody K) (c_gitrev K) (N.to_nat 50000).
Definition dreq (l : list bytes) : request := mkReq false (str "text/plain") [] None l.
Definition some : bytes := repeat 65 (N.to_nat 200).
Definition none : bytes := repeat 0 (N.to_nat 9805).

Lemma KD_ok : conf_ok KD.
Proof. destruct (toy_conf_ok 49999 ltac:(lia)). constructor; assumption. Qed.

Lemma KD_fit n : n < 2 ^ 32 -> len (warcinfo_body KD (c_base KD n)) <= 2 ^ 19 /\ 2 * len (warcinfo_body KD (c_base KD n)) + 8000 + 33000 <= c_max KD.
Proof.
  intros Hn. pose proof (fits_KL n Hn) as F. change (warcinfo_body KD (c_base KD n)) with (warcinfo_body KL (c_base KL n)). change (c_max KL) with 20000 in F.
  change (c_max KD) with 49999. lia.
Qed.
Lemma KD_fits : fits_any KD.
Proof. intros n Hn. pose proof (KD_fit n Hn). lia. Qed.
Lemma KD_FIT n : n < 2 ^ 32 -> len (warcinfo_body KD (c_base KD n)) <= 2 ^ 19 /\ 2 * len (warcinfo_body KD (c_base KD n)) + 8 * 0 + 12000 <= c_max KD.
Proof. intros Hn. pose proof (KD_fit n Hn). lia. Qed.
Lemma KD_RFIT n : n < 2 ^ 32 -> 2 * len (warcinfo_body KD (c_base KD n)) + 8000 + 33000 <= c_max KD.
Proof. intros Hn. apply KD_fit. auto. Qed.

Lemma len_some : len some = 200.
Proof. unfold some, len. rewrite repeat_length. lia. Qed.
Lemma len_none : len none = 9805.
Proof. unfold none, len. rewrite repeat_length. lia. Qed.
Lemma none_0 : Forall (eq 0) none.
Proof. apply Forall_forall. intros y Hy. apply repeat_spec in Hy. auto. Qed.

Lemma dreq_ok l : Forall (fun d => d = some \/ d = none) l -> len (List.concat l) < 1200000 -> request_ok (dreq l).
Proof.
  intros F LL. constructor; cbn [dreq r_mime r_data].
  - destruct (goodb_val (str "text/plain") eq_refl). split; [auto|]. split; [auto|vm_compute; discriminate].
  - eapply Forall_impl; [|exact F]. cbn beta. intros d [->| ->]; (split; [discriminate|]); apply Forall_forall; intros y Hy; apply repeat_spec in Hy; lia.
  - lia.
Qed.

Lemma concat_len (d : bytes) n : len (List.concat (repeat d n)) = N.of_nat n * len d.
Proof. induction n as [|n IH]; [reflexivity|]. cbn [repeat List.concat]. rewrite len_app, IH. lia. Qed.
Lemma concat_snoc (d : bytes) n : List.concat (repeat d (S n)) = List.concat (repeat d n) ++ d.
Proof. induction n as [|n IH]; [cbn; rewrite app_nil_r; auto|]. cbn [repeat List.concat] in *. rewrite IH at 1. rewrite app_assoc. auto. Qed.
Lemma repeat_snoc {A} (d : A) n : repeat d (S n) = repeat d n ++ [d].
Proof. induction n as [|n IH]; [auto|]. cbn [repeat app] in *. rewrite IH at 1. auto. Qed.

(** * One store and another which goes on *)

Lemma al_inv {A B} (p : prog A) (k : A -> prog B) s Q : alive (bindp p k) s Q -> exists a s1, run p s = (s1, inl a) /\ alive (k a) s1 Q.
Proof.
  intros (b & s2 & E & H). rewrite run_bind in E. destruct (run p s) as (s1 & [a|d]); [|discriminate E].
  exists a, s1. split; [auto|]. exists b, s2. auto.
Qed.

Lemma feed_app C L a b : forall s aa sj Q, alive (bindp (feed_all C L aa sj a) (fun x => feed_all C L (fst x) (snd x) b)) s Q -> alive (feed_all C L aa sj (a ++ b)) s Q.
Proof.
  induction a as [|d a IH]; intros s aa sj Q H; cbn [feed_all app] in *; [exact H|].
  apply al_inv in H. destruct H as (x & s1 & E & H). rewrite run_bind in E. destruct (run (SegJob_Feed C L aa sj d) s) as (s2 & [(aa2 & sj2)|e]) eqn:E2; [|discriminate E].
  eapply al_bind with (Q := fun x s' => x = (aa2, sj2) /\ s' = s2); [exists (aa2, sj2), s2; auto|]. cbn beta. intros y s3 (-> & ->). apply IH.
  eapply al_bind with (Q := fun y s' => y = x /\ s' = s1); [exists x, s1; auto|]. cbn beta. intros y s3 (-> & ->). exact H.
Qed.

Definition begin (C : conf) (L : zlib) : prog (segjob L) :=
  let! date := sys CTime in
  let! h := hset (Header_New (c_idsize C)) "WARC-Date" date in
  let! h := hset h "Content-Type" (str "text/plain") in
  let! h := hset h "WARC-Type" (str "resource") in
  SegJob_New C L h None.

Lemma begin_run C L l s : l <> [] -> run (store_feed C L (dreq l)) s = run (bindp (begin C L) (fun sj => feed_all C L (0, 0) sj l)) s.
Proof.
  intros N. destruct l as [|d l]; [congruence|]. unfold store_feed, begin, dreq. cbn [r_meta r_ident r_data r_mime bindp].
  repeat (rewrite !run_bind; match goal with |- context [run ?p ?s] => destruct (run p s) as (? & [?|?]) end; [|reflexivity]). reflexivity.
Qed.

Lemma store_more C L a b s Q Q' : a <> [] -> alive (store_feed C L (dreq a)) s Q ->
  (forall x s', Q x s' -> alive (feed_all C L (fst x) (snd x) b) s' Q') -> alive (store_feed C L (dreq (a ++ b))) s Q'.
Proof.
  intros NA (x & s2 & E & H) K. rewrite begin_run in E by auto.
  assert (Y : alive (bindp (begin C L) (fun sj => feed_all C L (0, 0) sj (a ++ b))) s Q').
  { assert (Z : alive (bindp (begin C L) (fun sj => feed_all C L (0, 0) sj a)) s Q) by (exists x, s2; auto).
    apply al_inv in Z. destruct Z as (sj & s1 & E1 & Z). eapply al_bind with (Q := fun y s' => y = sj /\ s' = s1); [exists sj, s1; auto|].
    cbn beta. intros y s' (-> & ->). apply feed_app. eapply al_bind; [exact Z|]. auto. }
  destruct Y as (y & s3 & E3 & H3). exists y, s3. rewrite begin_run by (destruct a; [congruence|discriminate]). auto.
Qed.

(** * The first segments *)

Definition PS (d : bytes) : Prop := ~ In 0 d -> len d < 49999.
Lemma PS_steered R z d o fl : steered toy3 R z d o fl -> 33000 <= R <= c_max KD -> PS d.
Proof.
  intros S (R1 & R2) NI. assert (R4 : 4000 <= R) by lia. destruct (steer3 _ _ _ _ _ R4 S) as ((_ & I3) & _). pose proof (steer3_len _ _ _ _ _ R4 S NI) as LD.
  change (c_max KD) with 49999 in R2. destruct I3 as [(_ & ->)|(_ & I3)]; [change (len []) with 0 in LD|]; lia.
Qed.

Lemma fs0_ok : archive_ok KD toy3 fs0 /\ date_ok (f_clock fs0).
Proof. apply (reach_inv KD toy3 KD_ok toy3_ok (mkWorld fs0 [])). exists fs0. split; [apply fs0_empty|constructor]. Qed.

Section Run.
Variable kz : N.
Hypothesis KZ : forall t, is_bytes t -> 0 < len t <= 4096 -> len (z_gzip toy3 0 t) = len t + kz.
Notation bz := (BigMain.busy KD toy3 fs0 PS 33000 (str "resource") None kz).

Lemma TY0 : str "resource" = str "resource" \/ str "resource" = str "metadata" /\ (exists ref : bytes, @None bytes = Some ref).
Proof. auto. Qed.
Lemma SZD (DATA : bytes) : forall R z (a : bytes) d b o fl, steered toy3 R z d o fl -> 33000 <= R <= c_max KD -> DATA = a ++ d ++ b -> PS d.
Proof. intros R z a d b o fl S HR _. eapply PS_steered; eauto. Qed.

Lemma go DATA fu : len DATA < 1200000 -> goes_on KD toy3 fs0 DATA PS 33000 (str "resource") None kz fu.
Proof.
  intros LD. destruct fs0_ok as (AO & DT).
  apply (feed_big KD toy3 KD_ok toy3_ok toy3_live toy3_steer fs0 AO DT DATA KD_FIT 0 4000 ltac:(lia) ltac:(change (c_fuel KD) with (N.to_nat 50000); lia) ltac:(lia) ltac:(auto) ltac:(lia) ltac:(lia)
    PS 33000 ltac:(lia) KD_RFIT (SZD DATA) (str "resource") None TY0 kz KZ).
Qed.

Lemma busy_cases s sj tk : bz s sj tk -> sj_seg toy3 sj = tk \/ len (sj_seg toy3 sj) < len tk.
Proof.
  intros (H & sg & out & hb & R & ds & cur & pd & G1 & G2 & G3 & G4 & G5 & G6 & G7 & G8 & G9 & G10 & G11 & G12 & G13 & G14 & G15 & G16 & G17 & G18 & _).
  rewrite G18, G9. destruct ds as [|d ds]; [left; auto|right]. inversion G14; subst. cbn [List.concat]. rewrite !len_app. lia.
Qed.

Lemma first : alive (store_feed KD toy3 (dreq [some])) fs0 (fun x s => cache_ok KD fs0 (fst x) /\ bz s (snd x) some /\ len (sj_seg toy3 (snd x)) <= 200).
Proof.
  destruct fs0_ok as (AO & DT). eapply (start_live KD toy3 KD_ok fs0 DT (dreq [some])); [|reflexivity|discriminate|exact []|exact KZ|discriminate|].
  - apply dreq_ok; [repeat constructor|]. cbn [List.concat]. rewrite app_nil_r, len_some. lia.
  - intros h BA B1 B2 B3 B4. cbn [feed_all dreq r_data].
    eapply al_bind; [apply (go some (c_fuel KD) ltac:(rewrite len_some; lia) fs0 (0, 0) _ [] some)|].
    + discriminate.
    + apply cache_0.
    + exists []. rewrite app_nil_r. auto.
    + right. split; [|change (c_fuel KD) with (N.to_nat 50000); rewrite len_some; lia]. exists []. split; [|constructor].
      exists (fun _ => None). cbn [sj_hdr sj_cur sj_ident sj_nseg sj_done sj_pay sj_seg sj_size sj_in sj_z sj_flag].
      repeat (split; [solve [auto | reflexivity | repeat split; auto | constructor]|]). intros n X. congruence.
    + cbn beta. intros (aa & sj) s (CA & BU & X & _). cbn [fst snd app] in *. apply al_ret. cbn [fst snd]. split; [auto|]. split; [auto|]. rewrite <- len_some. auto.
Qed.

Definition upto (n : nat) : bytes := List.concat (repeat some n).

Lemma grow n : (n < 250)%nat ->
  alive (store_feed KD toy3 (dreq (repeat some (S n)))) fs0 (fun x s => cache_ok KD fs0 (fst x) /\ bz s (snd x) (upto (S n)) /\ sj_seg toy3 (snd x) = upto (S n)) \/
  exists k, (k < 250)%nat /\ alive (store_feed KD toy3 (dreq (repeat some (S k)))) fs0 (fun x s => cache_ok KD fs0 (fst x) /\ bz s (snd x) (upto (S k)) /\
    len (sj_seg toy3 (snd x)) <= 200 /\ len (sj_seg toy3 (snd x)) < len (upto (S k))).
Proof.
  induction n as [|n IH]; intros LN.
  - destruct first as (x & s & E & CA & BU & LS). change (repeat some 1) with [some]. replace (upto 1) with some by (unfold upto; cbn; rewrite app_nil_r; auto).
    destruct (busy_cases _ _ _ BU) as [X|X]; [left; exists x, s; auto|right]. exists 0%nat. split; [lia|]. exists x, s.
    change (repeat some 1) with [some]. replace (upto 1) with some by (unfold upto; cbn; rewrite app_nil_r; auto). auto 6.
  - destruct IH as [IH|IH]; [lia| |right; exact IH].
    assert (X : alive (store_feed KD toy3 (dreq (repeat some (S (S n))))) fs0 (fun x s => cache_ok KD fs0 (fst x) /\ bz s (snd x) (upto (S (S n))) /\
      (sj_seg toy3 (snd x) = upto (S (S n)) \/ len (sj_seg toy3 (snd x)) <= 200))).
    { rewrite (repeat_snoc some (S n)). eapply store_more; [discriminate|exact IH|]. cbn beta. intros (aa & sj) s (CA & BU & ES). cbn [fst snd] in *. cbn [feed_all].
      assert (LU : forall q, len (upto q) = N.of_nat q * 200) by (intros q; unfold upto; rewrite concat_len, len_some; auto).
      assert (EU : upto (S (S n)) = upto (S n) ++ some) by (apply concat_snoc).
      eapply al_bind; [apply (go (upto (S (S n))) (c_fuel KD) ltac:(rewrite LU; lia) s aa sj (upto (S n)) some)|].
      + discriminate.
      + auto.
      + exists []. rewrite app_nil_r. auto.
      + left. split; [auto|]. change (c_fuel KD) with (N.to_nat 50000); rewrite len_some; lia.
      + cbn beta. intros (aa1 & sj1) s1 (CA1 & BU1 & _ & F). cbn [fst snd] in *. apply al_ret. cbn [fst snd]. split; [auto|]. split; [rewrite EU; auto|].
        destruct F as [(_ & F)|F]; [left; rewrite F, ES, EU; auto|right; rewrite <- len_some; auto]. }
    destruct X as (x & s & E & CA & BU & C). destruct (busy_cases _ _ _ BU) as [X|X]; [left; exists x, s; auto|]. destruct C as [C|C]; [left; exists x, s; auto|].
    right. exists (S n). split; [lia|]. exists x, s. auto 6.
Qed.

Lemma two : exists k, (k < 250)%nat /\ alive (store_feed KD toy3 (dreq (repeat some (S k)))) fs0 (fun x s => cache_ok KD fs0 (fst x) /\ bz s (snd x) (upto (S k)) /\
    len (sj_seg toy3 (snd x)) <= 200 /\ len (sj_seg toy3 (snd x)) < len (upto (S k))).
Proof.
  destruct (grow 249 ltac:(lia)) as [(x & s & _ & _ & BU & ES)|X]; [exfalso|exact X].
  destruct BU as (H & sg & out & hb & R & ds & cur & pd & G1 & G2 & G3 & G4 & G5 & G6 & G7 & G8 & G9 & G10 & G11 & G12 & G13 & G14 & G15 & G16 & G17 & G18 & G19 & G20 & G21 & G22 & G23 & G24).
  assert (RC : R <= c_max KD) by (destruct G20 as (pre & hp & idx & wid & E1 & _); rewrite E1, !len_app in G22; lia).
  pose proof (PS_steered _ _ _ _ _ G24 (conj G23 RC)) as P. rewrite <- G18, ES in P. unfold PS in P. change (upto (S 249)) with (upto 250) in P. assert (L : len (upto 250) = 50000) by (unfold upto; rewrite concat_len, len_some; lia).
  rewrite L in P. assert (NI : ~ In 0 (upto 250)).
  { unfold upto. intros X. apply in_concat in X. destruct X as (l & X1 & X2). apply repeat_spec in X1. subst l. apply repeat_spec in X2. discriminate X2. }
  specialize (P NI). lia.
Qed.

(** * The zeros *)

Lemma zero_step s aa sj sg tk : bz s sj tk -> sj_cur toy3 sj = Some sg -> (2 * 9805 + 24 <= Wsilo_GetSpace KD (sg_silo sg))%Z ->
  alive (SegJob_Feed KD toy3 aa sj none) s (fun x s' => fst x = aa /\ bz s' (snd x) (tk ++ none) /\ sj_seg toy3 (snd x) = sj_seg toy3 sj ++ none /\
    exists sg', sj_cur toy3 (snd x) = Some sg' /\ (Wsilo_GetSpace KD (sg_silo sg) - 93 <= Wsilo_GetSpace KD (sg_silo sg'))%Z).
Proof.
  intros BU EC SP. unfold SegJob_Feed. assert (EF : exists f, c_fuel KD = S f) by (change (c_fuel KD) with (N.to_nat 50000); exists (N.to_nat 49999); lia). destruct EF as (f & ->).
  eapply al_weak; [apply (one_call KD toy3 toy3_ok toy3_steer fs0 [] KD_FIT 0 4000 ltac:(lia) ltac:(change (c_fuel KD) with (N.to_nat 50000); lia) ltac:(lia) ltac:(auto) ltac:(cbn; lia) ltac:(cbn; lia)
    PS 33000 ltac:(lia) KD_RFIT (SZD []) (str "resource") None kz KZ f s aa sj sg tk none BU)|]; auto.
  - discriminate.
  - rewrite len_none. lia.
  - cbn beta. intros x s' (E1 & B' & E2 & sg' & R & z & d & o & fl & av & z' & out & EC' & HR & S & A1 & A2 & A3 & EZ & GS).
    split; [auto|]. split; [auto|]. split; [auto|]. exists sg'. split; [auto|].
    assert (R4 : 4000 <= R) by lia. destruct (steer3 _ _ _ _ _ R4 S) as (I3 & FL).
    assert (FL2 : (if av <? 131072 then ZPartial else fl) = ZNone \/ (if av <? 131072 then ZPartial else fl) = ZPartial) by (destruct (av <? 131072); auto).
    destruct (call3 R z o none av _ R4 I3 FL2 A1 A2 ltac:(discriminate) A3) as (z2 & out2 & EZ2 & _ & _ & _ & L93).
    cbn [toy3 z_deflate] in EZ. rewrite EZ in EZ2. apply (f_equal (fun y => snd (fst y))) in EZ2. cbn [fst snd] in EZ2. rewrite <- EZ2 in L93. specialize (L93 len_none none_0). lia.
Qed.

Lemma zero_steps n : forall s aa sj sg tk, bz s sj tk -> sj_cur toy3 sj = Some sg -> (2 * 9805 + 24 + 93 * Z.of_nat n <= Wsilo_GetSpace KD (sg_silo sg))%Z ->
  alive (feed_all KD toy3 aa sj (repeat none n)) s (fun x s' => fst x = aa /\ bz s' (snd x) (tk ++ List.concat (repeat none n)) /\
    sj_seg toy3 (snd x) = sj_seg toy3 sj ++ List.concat (repeat none n)).
Proof.
  induction n as [|n IH]; intros s aa sj sg tk BU EC SP; cbn [repeat feed_all List.concat].
  - apply al_ret. cbn [fst snd]. rewrite !app_nil_r. auto.
  - eapply al_bind; [apply (zero_step s aa sj sg tk BU EC); lia|]. cbn beta. intros (aa1 & sj1) s1 (EAA & B1 & E1 & sg1 & EC1 & SP1). cbn [fst snd] in *. subst aa1.
    eapply al_weak; [apply (IH s1 aa sj1 sg1 (tk ++ none) B1 EC1); lia|]. cbn beta. intros x s2 (X1 & X2 & X3). split; [auto|]. split; [rewrite app_assoc; auto|].
    rewrite X3, E1, <- app_assoc. auto.
Qed.
End Run.

(** * The end *)

Lemma dec_is n k : 0 < k -> 10 ^ (k - 1) <= n -> n < 10 ^ k -> len (dec n) = k.
Proof.
  intros K0 H1 H2. pose proof (dec_upto n k H2) as U. pose proof (dec_below n) as B. assert (k - 1 < len (dec n)); [|lia].
  apply (N.pow_lt_mono_r_iff 10); lia.
Qed.

Lemma shrink_case : exists r id, request_ok r /\ r_ident r = None /\ r_data r <> [] /\ fits_any KD /\ numbers_left KD fs0 r /\ rounds_any KD r /\
  req_id KD (z_sha toy3) r id /\ r_meta r = false /\ len (List.concat (r_data r)) < 2 ^ 62 /\ unknown KD toy3 fs0 id /\
  exists s', run (main_store KD toy3 r) fs0 = (s', inr DAbort) /\ f_idx s' <> f_idx fs0 /\ ~ at_rest s'.
Proof.
  destruct (zl_stored toy3 toy3_live) as (kz & KZ). destruct (two kz KZ) as (k & LK & AL). set (l := repeat some (S k)) in *. set (r := dreq (l ++ repeat none 103)).
  assert (LU : len (upto (S k)) = N.of_nat (S k) * 200) by (unfold upto; rewrite concat_len, len_some; auto).
  assert (EDD : List.concat (r_data r) = upto (S k) ++ List.concat (repeat none 103)) by (unfold r; cbn [dreq r_data]; rewrite concat_app; auto).
  assert (LZ : len (List.concat (repeat none 103)) = 1009915) by (rewrite concat_len, len_none; lia).
  assert (LD : len (List.concat (r_data r)) = N.of_nat (S k) * 200 + 1009915) by (rewrite EDD, len_app, LU, LZ; auto).
  exists r. eexists.
  assert (RO : request_ok r).
  { apply dreq_ok; [|change (l ++ repeat none 103) with (r_data r); rewrite LD; lia]. apply Forall_app. split; apply Forall_forall; intros d Hd; apply repeat_spec in Hd; auto. }
  assert (NL : numbers_left KD fs0 r).
  { exists 0, 4000. rewrite LD. split; [lia|]. split; [change (c_fuel KD) with (N.to_nat 50000); lia|]. split; [lia|]. split; [auto|lia]. }
  assert (RD : rounds_any KD r) by (unfold rounds_any; rewrite LD; change (c_fuel KD) with (N.to_nat 50000); lia).
  assert (RID : req_id KD (z_sha toy3) r (firstn (N.to_nat (c_idsize KD)) (z_sha toy3 (List.concat (r_data r))))) by reflexivity.
  split; [exact RO|]. split; [reflexivity|]. split; [discriminate|]. split; [apply KD_fits|]. split; [exact NL|]. split; [exact RD|]. split; [exact RID|].
  split; [reflexivity|]. split; [rewrite LD; lia|]. assert (UN : unknown KD toy3 fs0 (firstn (N.to_nat (c_idsize KD)) (z_sha toy3 (List.concat (r_data r))))) by (apply no_key; reflexivity).
  split; [exact UN|]. destruct fs0_ok as (AO & DT). set (id := firstn _ _) in *.
  destruct (id_hex KD toy3 KD_ok toy3_ok r eq_refl id RID) as (HX & LX).
  assert (GV : gives KD fs0 id None).
  { apply (unknown_gives KD toy3 KD_ok); auto. - intros n; reflexivity. - change (c_fuel KD) with (N.to_nat 50000); lia. }
  assert (X : alive (store_feed KD toy3 r) fs0 (fun x s => exists p, len p < N.of_nat (S k) * 200 /\ len p <= 200 /\
    BigMain.busy KD toy3 fs0 PS 33000 (str "resource") None kz s (snd x) (List.concat (r_data r)) /\ sj_seg toy3 (snd x) = p ++ List.concat (repeat none 103) /\
    exists a, upto (S k) = a ++ p)).
  { eapply store_more; [discriminate|exact AL|]. cbn beta. intros (aa & sj) s (CA & BU & L1 & L2). cbn [fst snd] in *. pose proof BU as BU0.
    destruct BU as (H & sg & out & hb & R & ds & cur & pd & G1 & G2 & G3 & G4 & G5 & G6 & G7 & G8 & G9 & G10 & G11 & G12 & G13 & G14 & G15 & G16 & G17 & G18 & G19 & G20 & G21 & G22 & G23 & G24).
    destruct (steered_zran KD toy3 fs0 [] KD_FIT 0 4000 ltac:(lia) ltac:(change (c_fuel KD) with (N.to_nat 50000); lia) ltac:(lia) ltac:(auto) ltac:(cbn; lia) ltac:(cbn; lia)
      PS 33000 ltac:(lia) KD_RFIT (SZD []) kz KZ _ _ _ _ _ G24) as (ZR & _). pose proof (zl_total toy3 toy3_live _ _ _ ZR) as ZT. unfold zmax in ZT. rewrite <- G18 in ZT.
    assert (SP : (30000 <= Wsilo_GetSpace KD (sg_silo sg))%Z).
    { assert (WB : w_buf (sg_silo sg) = true /\ w_len (sg_silo sg) = len hb) by (destruct G20 as (pre & hp & idx & wid & _ & _ & _ & _ & _ & _ & _ & E); rewrite E; auto).
      destruct WB as (WB & WL). unfold Wsilo_GetSpace. rewrite WB, WL. unfold BUFLEN. destruct (_ <? _)%Z eqn:Q; lia. }
    eapply al_weak; [apply (zero_steps kz KZ 103 s aa sj sg (upto (S k)) BU0 G1); lia|]. cbn beta. intros x s' (X1 & X2 & X3).
    exists (sj_seg toy3 sj). split; [lia|]. split; [auto|]. split; [rewrite EDD; auto|]. split; [auto|]. exists (List.concat ds). rewrite G9, G18. auto. }
  unfold main_store. eapply dies_bind; [exact X|]. cbn beta. intros (aa & sj) s (p & P1 & P2 & BU & ES & a & EA). cbn [snd] in *.
  assert (LA : len a + len p = N.of_nat (S k) * 200) by (rewrite <- LU, EA, len_app; auto).
  apply (commit_dies KD toy3 KD_ok toy3_ok toy3_live toy3_steer fs0 r RO eq_refl ltac:(discriminate) KD_fits NL RD ltac:(rewrite LD; lia) PS 33000 ltac:(lia) KD_RFIT (SZD _) id RID kz KZ s aa sj a GV BU).
  - rewrite EDD, ES, EA, app_assoc. auto.
  - intros ->. change (len []) with 0 in LA. lia.
  - intros b d c Ed Pd. change (c_max KD) with 49999. apply N.lt_trans with 49999; [|lia]. apply Pd. intros Y.
    assert (Y' : In 0 (upto (S k))) by (rewrite EA, Ed, !in_app_iff; auto). unfold upto in Y'. apply in_concat in Y'. destruct Y' as (q & Q1 & Q2). apply repeat_spec in Q1. subst q. apply repeat_spec in Q2. discriminate Q2.
  - exists 4. split; [lia|]. change (c_max KD) with 49999.
    rewrite (dec_is (len a + 49999) 5), (dec_is 49999 5), (dec_is (len (sj_seg toy3 sj)) 7), (dec_is (len (List.concat (r_data r))) 7); rewrite ?LD, ?ES, ?len_app, ?LZ;
      change (10 ^ (5 - 1)) with 10000; change (10 ^ 5) with 100000; change (10 ^ (7 - 1)) with 1000000; change (10 ^ 7) with 10000000; lia.
Qed.

Lemma shrink_end : exists C L, conf_ok C /\ zlib_ok L /\ zlib_live L /\ zlib_steer L /\ exists x, reach C L x /\
  (forall j p, In (j, p) (wo_procs x) -> exists a, p = Ret a) /\
  exists r id, request_ok r /\ r_ident r = None /\ r_data r <> [] /\ fits_any C /\ numbers_left C (wo_fs x) r /\ rounds_any C r /\
    req_id C (z_sha L) r id /\ r_meta r = false /\ len (List.concat (r_data r)) < 2 ^ 62 /\ unknown C L (wo_fs x) id /\
    exists s', run (main_store C L r) (wo_fs x) = (s', inr DAbort) /\ f_idx s' <> f_idx (wo_fs x) /\ ~ at_rest s'.
Proof.
  exists KD, toy3. split; [exact KD_ok|]. split; [exact toy3_ok|]. split; [exact toy3_live|]. split; [exact toy3_steer|].
  exists (mkWorld fs0 []). split; [exists fs0; split; [apply fs0_empty|constructor]|]. split; [intros j p []|]. exact shrink_case.
Qed.
