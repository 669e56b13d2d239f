(* Runs of the model used as examples and counterexamples. *)
From Coq Require Import String.
From Coq Require Import ZifyBool ZifyNat ZifyN.
From Verif Require Import Base BaseLemmas ListLemmas IndexModel IndexSpec HeaderModel HeaderSpec GzipModel GzipSpec
  ProgModel StoreModel StoreSpec StoreSysModel StoreToy StoreToyOk StoreWit.
Open Scope string_scope.
Open Scope list_scope.
Open Scope N_scope.

Definition K : conf := toy_conf 12000.
Lemma K_ok : conf_ok K.
Proof. apply toy_conf_ok. lia. Qed.

Definition st (t : bytes) : request := mkReq false (str "text/plain") [] None [t].
Definition idof (s : string) : bytes := str "http://example.com/" ++ str s.
Definition lim : nat := 50 * 100.

(** * Looking at a world *)

Definition all_ended (x : world) : bool :=
  forallb (fun jp => match snd jp with Ret _ => true | _ => false end) (wo_procs x).
Lemma all_ended_ok x : all_ended x = true -> forall j p, In (j, p) (wo_procs x) -> exists a, p = Ret a.
Proof.
  intros H j p I. unfold all_ended in H. rewrite forallb_forall in H. specialize (H _ I). cbn [snd] in H. destruct p; try discriminate. eauto.
Qed.

Definition returned (i : nat) (b : bytes) (x : world) : bool :=
  match outcome i x with Some (inl (Some c)) => bytes_eqb c b | _ => false end.
Definition died (i : nat) (d : death) (x : world) : bool :=
  match outcome i x, d with
  | Some (inr DAbort), DAbort => true
  | Some (inr DKill), DKill => true
  | Some (inr DExit), DExit => true
  | _, _ => false
  end.
Lemma returned_ok i b x : returned i b x = true -> outcome i x = Some (inl (Some b)).
Proof.
  unfold returned. destruct (outcome i x) as [[[c|]|]|]; try discriminate. intros H. apply bytes_eqb_true in H. congruence.
Qed.
Lemma died_ok i d x : died i d x = true -> outcome i x = Some (inr d).
Proof. unfold died. destruct (outcome i x) as [[?|[]]|]; destruct d; try discriminate; auto. Qed.

(* how a command run alone would end *)
Definition gets (s : fs) (arg : bytes) (z : option bytes) : bool :=
  match snd (run (main_get K toy false arg) s), z with
  | inl (Some c), Some d => bytes_eqb c d
  | inl None, None => true
  | _, _ => false
  end.
Lemma gets_ok s arg z : gets s arg z = true -> snd (run (main_get K toy false arg) s) = inl z.
Proof.
  unfold gets. destruct (snd (run (main_get K toy false arg) s)) as [[c|]|]; destruct z; try discriminate; auto. intros H. apply bytes_eqb_true in H. congruence.
Qed.
Definition aborts {A} (p : prog A) (s : fs) : bool := match snd (run p s) with inr DAbort => true | _ => false end.
Lemma aborts_ok {A} (p : prog A) s : aborts p s = true -> snd (run p s) = inr DAbort.
Proof. unfold aborts. destruct (snd (run p s)) as [|[]]; try discriminate. auto. Qed.

(* no two entries agree in the first eight digits *)
Definition ent_eqb (a b : ixent) : bool :=
  bytes_eqb (e_key a) (e_key b) && (e_flags a =? e_flags b) && (e_silo a =? e_silo b) && (e_off a =? e_off b) && bytes_eqb (e_cont a) (e_cont b).
Definition apart8 (s : fs) : bool :=
  forallb (fun a => (len (e_cont a) =? 8) && forallb (fun b => negb (bytes_eqb (firstn 8 (e_key a)) (firstn 8 (e_key b))) || ent_eqb a b) (f_idx s)) (f_idx s).
Lemma asked8 k e : (8 <= List.length k)%nat -> asked (Some k) e -> firstn 8 (e_key e) = firstn 8 (lower k).
Proof.
  intros L (r & ->). rewrite firstn_app, firstn_firstn. replace (8 - List.length (firstn 24 (lower k)))%nat with 0%nat.
  - rewrite firstn_O, app_nil_r. reflexivity.
  - rewrite firstn_length. unfold lower. rewrite map_length. lia.
Qed.
Lemma apart8_ok s : apart8 s = true -> apart K s.
Proof.
  unfold apart8. rewrite forallb_forall. intros H.
  assert (G : forall k e1 e2, (8 <= List.length k)%nat -> In e1 (f_idx s) -> In e2 (f_idx s) -> asked (Some k) e1 -> asked (Some k) e2 -> e1 = e2).
  { intros k e1 e2 L I1 I2 A1 A2. specialize (H e1 I1). rewrite andb_true_iff, forallb_forall in H. destruct H as (_ & H). specialize (H e2 I2).
    rewrite (asked8 _ _ L A1), (asked8 _ _ L A2), bytes_eqb_refl in H. cbn [negb orb] in H. unfold ent_eqb in H. rewrite !andb_true_iff, !N.eqb_eq in H.
    destruct H as ((((H1 & H2) & H3) & H4) & H5). apply bytes_eqb_true in H1, H5. destruct e1, e2. cbn in *. congruence. }
  split.
  - intros id e1 e2 L. apply G. unfold len in L. cbn [K toy_conf c_idsize] in L. lia.
  - intros e e1 e2 I1 _ _. apply G. specialize (H e I1). rewrite andb_true_iff, N.eqb_eq in H. unfold len in H. lia.
Qed.

Definition is_link (c : call) : bool := match c with CLink _ => true | _ => false end.
Definition is_creat (c : call) : bool := match c with CCreat _ => true | _ => false end.

Fixpoint each (l : list job) (i : nat) : list plan :=
  match l with [] => [] | j :: r => PA (AStart j) :: PRun i never :: each r (S i) end.

(** * Examples *)

Fixpoint count_from (k : N) (n : nat) : bytes :=
  match n with O => [] | S m => k :: count_from ((k + 1) mod 251) m end.
Definition count (n : N) : bytes := count_from 0 (N.to_nat n).

(* An object, one in two segments, metadata about that, the first object again,
   one more, and metadata about the first. *)
Definition hello : request := st (str "Hello, world").
Definition hello_id : bytes := idof "39204683110a6ab20eef50ca542fd162".
Definition big : request := mkReq false (str "text/plain") [] None [count 6000; count 5500].
Definition big_id : bytes := idof "88a04440f82c4094b8de104d8d77a893".
Definition about_big : request := mkReq true (str "text/plain") big_id None [str "about"].
Definition about_id : bytes := idof "23508e9af5771168b62f65b4ea899e74".
(** * Counterexamples *)

Lemma procs1 x j p : map fst (wo_procs x) = [j] -> nth_error (wo_procs x) 0 = Some (j, p) -> wo_procs x = [(j, p)].
Proof. destruct (wo_procs x) as [|a [|]]; cbn; intros; congruence. Qed.
Lemma outcome_nth x i z : outcome i x = Some z -> exists j,
  nth_error (wo_procs x) i = Some (j, match z with inl a => Ret a | inr d => Die d end).
Proof. unfold outcome. destruct (nth_error (wo_procs x) i) as [[j [a|d|c k]]|]; try discriminate; intros H; injection H as <-; eauto. Qed.
Definition ended (z : option bytes + death) : prog (option bytes) := match z with inl a => Ret a | inr d => Die d end.
Lemma procs_are x : forall js zs, map fst (wo_procs x) = js -> List.length zs = List.length js ->
  (forall i z, nth_error zs i = Some z -> outcome i x = Some z) -> wo_procs x = combine js (map ended zs).
Proof.
  unfold outcome. induction (wo_procs x) as [|[j p] l IH]; intros js zs E L H; cbn [map fst] in E; subst js.
  - destruct zs; [reflexivity|discriminate].
  - destruct zs as [|z zs]; [discriminate|]. cbn [map combine]. f_equal.
    + specialize (H 0%nat z eq_refl). cbn [nth_error fst] in *. destruct p; try discriminate; injection H as <-; reflexivity.
    + apply IH; [reflexivity|cbn in L; lia|]. intros i y Hy. apply (H (S i) y Hy).
Qed.
(* how all commands of a run ended *)
Fixpoint all_as (zs : list (option bytes + death)) (i : nat) (x : world) : bool :=
  match zs with
  | [] => true
  | inl (Some b) :: r => returned i b x && all_as r (S i) x
  | inl None :: r => match outcome i x with Some (inl None) => all_as r (S i) x | _ => false end
  | inr d :: r => died i d x && all_as r (S i) x
  end.
Lemma all_as_ok zs : forall i x, all_as zs i x = true -> forall k z, nth_error zs k = Some z -> outcome (i + k) x = Some z.
Proof.
  induction zs as [|z zs IH]; intros i x H k y Hy; [destruct k; discriminate|].
  assert (A : outcome i x = Some z /\ all_as zs (S i) x = true).
  { cbn [all_as] in H. destruct z as [[b|]|d].
    - rewrite andb_true_iff in H. destruct H as (H1 & H2). split; [apply returned_ok; auto|auto].
    - destruct (outcome i x) as [[[|]|]|]; try discriminate. auto.
    - rewrite andb_true_iff in H. destruct H as (H1 & H2). split; [apply died_ok; auto|auto]. }
  destruct A as (A1 & A2). destruct k as [|k]; cbn [nth_error] in Hy.
  - injection Hy as <-. rewrite Nat.add_0_r. auto.
  - replace (i + S k)%nat with (S i + k)%nat by lia. eapply IH; eauto.
Qed.

Lemma go_all l zs (obs : world -> bool) :
  match go K toy lim l w0 with Some x => all_as zs 0 x && obs x | None => false end = true ->
  List.length zs = List.length (jobs l) ->
  exists x, reach K toy x /\ wo_procs x = combine (jobs l) (map ended zs) /\ obs x = true.
Proof.
  intros H L. destruct (go_obs K toy lim l (fun x => all_as zs 0 x && obs x) H) as (x & R & O & J).
  rewrite andb_true_iff in O. destruct O as (O1 & O2). exists x. split; [auto|]. split; [|auto].
  apply procs_are; auto. intros i z Hz. apply (all_as_ok zs 0 x O1 i z Hz).
Qed.

(* Thirty-four thousand times the same letter: the segments but the first and the
   last are the same, and get does not find its way through. *)
Definition same : request := st (repeat 97 (N.to_nat 34000)).
Definition same_id : bytes := idof "6c3ce81ddcb0c121316fb54673b8c5e8".
Lemma same_lost : exists x, reach K toy x /\ wo_procs x = [(JStore same, Ret (Some same_id))] /\
  snd (run (main_get K toy false same_id) (wo_fs x)) = inl None.
Proof.
  destruct (go_all (each [JStore same] 0) [inl (Some same_id)] (fun x => gets (wo_fs x) same_id None)) as (x & R & E & O).
  - vm_cast_no_check (eq_refl true).
  - reflexivity.
  - exists x. split; [auto|]. split; [exact E|]. apply gets_ok. auto.
Qed.

(* The second segment of one object has the first eight digits of another object. *)
Definition one8 : request := st (str "bwosvvdctlihpy").
Definition two8 : request := st (repeat 97 (N.to_nat 10795) ++ str "vsztmavxwhixsf").
Definition one8_id : bytes := idof "26130835ef6900c500b6af5ce8bcc906".
Definition two8_id : bytes := idof "b15c7b0234493992d3c11178f2b91c77".
Lemma eight_lost : exists x, reach K toy x /\ wo_procs x = [(JStore one8, Ret (Some one8_id)); (JStore two8, Ret (Some two8_id))] /\
  snd (run (main_get K toy false two8_id) (wo_fs x)) = inr DAbort.
Proof.
  destruct (go_all (each [JStore one8; JStore two8] 0) [inl (Some one8_id); inl (Some two8_id)] (fun x => aborts (main_get K toy false two8_id) (wo_fs x))) as (x & R & E & O).
  - vm_cast_no_check (eq_refl true).
  - reflexivity.
  - exists x. split; [auto|]. split; [exact E|]. apply aborts_ok. auto.
Qed.

(* Interrupted when the index has the object but the silo does not: neither
   store nor get of that object works any more. *)
Lemma killed_stuck : exists x, reach K toy x /\ wo_procs x = [(JStore hello, Die DKill)] /\
  snd (run (main_store K toy hello) (wo_fs x)) = inr DAbort /\
  snd (run (main_get K toy false hello_id) (wo_fs x)) = inr DAbort.
Proof.
  destruct (go_all [PA (AStart (JStore hello)); PRun 0 is_link; PA (AKill 0)] [inr DKill]
    (fun x => aborts (main_store K toy hello) (wo_fs x) && aborts (main_get K toy false hello_id) (wo_fs x))) as (x & R & E & O).
  - vm_cast_no_check (eq_refl true).
  - reflexivity.
  - rewrite andb_true_iff in O. destruct O as (O1 & O2). exists x. split; [auto|]. split; [exact E|]. split; apply aborts_ok; auto.
Qed.

(* Interrupted after the first segment, then stored again with other pieces of
   input: store says it is there, get does not find it. *)
Definition five : bytes := count 11500.
Definition five_once : request := st five.
Definition five_twice : request := mkReq false (str "text/plain") [] None [firstn (N.to_nat 5000) five; skipn (N.to_nat 5000) five].
Definition five_id : bytes := idof "6bd71761629e7e543ec82af1a2a0222a".
Lemma killed_lost : exists x, reach K toy x /\ wo_procs x = [(JStore five_once, Die DKill); (JStore five_twice, Ret (Some five_id))] /\
  snd (run (main_get K toy false five_id) (wo_fs x)) = inl None.
Proof.
  destruct (go_all [PA (AStart (JStore five_once)); PRun 0 is_link; PA (ACall 0); PA (AKill 0); PA (AStart (JStore five_twice)); PRun 1 never]
    [inr DKill; inl (Some five_id)] (fun x => gets (wo_fs x) five_id None)) as (x & R & E & O).
  - vm_cast_no_check (eq_refl true).
  - reflexivity.
  - exists x. split; [auto|]. split; [exact E|]. apply gets_ok. auto.
Qed.

(* Two commands at the same time, nobody is killed: the first has seen that there
   is no silo zero, the second makes one, the first fails. *)
Definition other : request := st (str "Other").
Definition other_id : bytes := idof "f928dd03e9331aaaa7b24ac90c01719c".
Lemma race_store : exists x, reach K toy x /\ wo_procs x = [(JStore hello, Die DAbort); (JStore other, Ret (Some other_id))].
Proof.
  destruct (go_all [PA (AStart (JStore hello)); PRun 0 is_creat; PA (AStart (JStore other)); PRun 1 never; PRun 0 never]
    [inr DAbort; inl (Some other_id)] (fun _ => true)) as (x & R & E & O).
  - vm_cast_no_check (eq_refl true).
  - reflexivity.
  - exists x. split; [auto|exact E].
Qed.

(* Get of an object which is being stored fails. *)
Lemma race_get : exists x, reach K toy x /\ wo_procs x = [(JStore hello, Ret (Some hello_id)); (JGet false hello_id, Die DAbort)].
Proof.
  destruct (go_all [PA (AStart (JStore hello)); PRun 0 is_link; PA (AStart (JGet false hello_id)); PRun 1 never; PRun 0 never]
    [inl (Some hello_id); inr DAbort] (fun _ => true)) as (x & R & E & O).
  - vm_cast_no_check (eq_refl true).
  - reflexivity.
  - exists x. split; [auto|exact E].
Qed.

(* The same object twice at the same time is stored twice. *)
Definition is_ins (c : call) : bool := match c with CIdxIns _ => true | _ => false end.
Lemma race_twice : exists x, reach K toy x /\ wo_procs x = [(JStore hello, Ret (Some hello_id)); (JStore hello, Ret (Some hello_id))] /\
  len (filter (fun e => bytes_eqb (e_key e) (firstn 24 (str "39204683110a6ab20eef50ca542fd162"))) (f_idx (wo_fs x))) = 2.
Proof.
  destruct (go_all [PA (AStart (JStore hello)); PRun 0 is_ins; PA (AStart (JStore hello)); PRun 1 never; PRun 0 never]
    [inl (Some hello_id); inl (Some hello_id)] 
    (fun x => len (filter (fun e => bytes_eqb (e_key e) (firstn 24 (str "39204683110a6ab20eef50ca542fd162"))) (f_idx (wo_fs x))) =? 2)) as (x & R & E & O).
  - vm_cast_no_check (eq_refl true).
  - reflexivity.
  - exists x. split; [auto|]. split; [exact E|]. apply N.eqb_eq. auto.
Qed.

(* Metadata with an identifier which is already in use: the identifier is printed
   as if it had been stored. *)
Definition forced (t : string) : request := mkReq true (str "text/plain") hello_id (Some (str "0123456789abcdef0123456789abcdef")) [str t].
Definition forced_id : bytes := idof "0123456789abcdef0123456789abcdef".
Lemma forced_lost : exists x, reach K toy x /\
  wo_procs x = [(JStore hello, Ret (Some hello_id)); (JStore (forced "one"), Ret (Some forced_id)); (JStore (forced "two"), Ret (Some forced_id))] /\
  snd (run (main_get K toy false forced_id) (wo_fs x)) = inl (Some (str "one")).
Proof.
  destruct (go_all (each [JStore hello; JStore (forced "one"); JStore (forced "two")] 0) [inl (Some hello_id); inl (Some forced_id); inl (Some forced_id)]
    (fun x => gets (wo_fs x) forced_id (Some (str "one")))) as (x & R & E & O).
  - vm_cast_no_check (eq_refl true).
  - reflexivity.
  - exists x. split; [auto|]. split; [exact E|]. apply gets_ok. auto.
Qed.

(* The identifier to use may be given with the prefix, or so the check says. *)
Definition forced_full : request := mkReq true (str "text/plain") hello_id (Some forced_id) [str "one"].
Lemma forced_abort : exists x, reach K toy x /\ wo_procs x = [(JStore hello, Ret (Some hello_id)); (JStore forced_full, Die DAbort)] /\
  valid_id K forced_id = true.
Proof.
  destruct (go_all (each [JStore hello; JStore forced_full] 0) [inl (Some hello_id); inr DAbort] (fun _ => true)) as (x & R & E & O).
  - vm_cast_no_check (eq_refl true).
  - reflexivity.
  - exists x. split; [auto|]. split; [exact E|]. reflexivity.
Qed.

(* Once silo 0 is write protected objects are not put into silo 1, which has room
   for them, but each into a new one. *)
Definition one : request := st (str "one").
Definition one_id : bytes := idof "de33c4318f4d08bad5f99fcca76e8a4b".
Definition short (so : option (bytes * bool)) : bool := match so with Some (b, true) => len b <? 1200 | _ => false end.
Lemma protected_alone : exists x b1 b2, reach K toy x /\
  wo_procs x = [(JStore hello, Ret (Some hello_id)); (JStore other, Ret (Some other_id)); (JStore one, Ret (Some one_id))] /\
  f_silo (wo_fs x) 1 = Some (b1, true) /\ len b1 < 1200 /\ f_silo (wo_fs x) 2 = Some (b2, true) /\ len b2 < 1200.
Proof.
  destruct (go_all (each [JStore hello] 0 ++ [PA (AProtect 0)] ++ each [JStore other; JStore one] 1) [inl (Some hello_id); inl (Some other_id); inl (Some one_id)]
    (fun x => short (f_silo (wo_fs x) 1) && short (f_silo (wo_fs x) 2))) as (x & R & E & O).
  - vm_cast_no_check (eq_refl true).
  - reflexivity.
  - rewrite andb_true_iff in O. destruct O as (O1 & O2). unfold short in *.
    destruct (f_silo (wo_fs x) 1) as [[b1 []]|] eqn:F1; try discriminate. destruct (f_silo (wo_fs x) 2) as [[b2 []]|] eqn:F2; try discriminate.
    exists x, b1, b2. split; [auto|]. split; [exact E|]. split; [auto|]. split; [lia|]. split; [auto|lia].
Qed.

(** * Nothing out of the ordinary *)

Definition quiet (n : N) (x : world) : bool :=
  apart8 (wo_fs x) && (len (f_idx (wo_fs x)) =? n) && forallb (fun n => match f_hold (wo_fs x) n with None => true | _ => false end) [0; 1; 2; 3; 4; 5].
Lemma quiet_ok n x : quiet n x = true -> apart K (wo_fs x) /\ len (f_idx (wo_fs x)) = n.
Proof. unfold quiet. rewrite !andb_true_iff. intros ((H1 & H2) & _). split; [apply apart8_ok; auto|apply N.eqb_eq; auto]. Qed.

(* a store, then one of something else which is interrupted, and one which is not *)
Definition later (s s' : list ixent) : bool :=
  forallb (fun e => existsb (ent_eqb e) s || forallb (fun a => (len (e_cont a) =? 8) && 
    negb (bytes_eqb (firstn 8 (e_key e)) (firstn 8 (e_key a))) && negb (bytes_eqb (firstn 8 (e_key e)) (firstn 8 (lower (e_cont a))))) s) s'.
Lemma ent_eqb_ok a b : ent_eqb a b = true -> a = b.
Proof.
  unfold ent_eqb. rewrite !andb_true_iff, !N.eqb_eq. intros ((((H1 & H2) & H3) & H4) & H5). apply bytes_eqb_true in H1, H5. destruct a, b. cbn in *. congruence.
Qed.
Lemma later_ok s s' : later (f_idx s) (f_idx s') = true -> new_apart K s s'.
Proof.
  unfold later. rewrite forallb_forall. intros H e He. specialize (H e He). rewrite orb_true_iff in H. destruct H as [H|H].
  - left. apply existsb_exists in H. destruct H as (a & Ha & E). apply ent_eqb_ok in E. congruence.
  - right. rewrite forallb_forall in H. split.
    + intros id e1 LI I1 A1 A2. specialize (H e1 I1). rewrite !andb_true_iff in H. destruct H as ((_ & H) & _).
      assert (LL : (8 <= List.length id)%nat) by (unfold len in LI; cbn [K toy_conf c_idsize] in LI; lia).
      rewrite (asked8 _ _ LL A1), (asked8 _ _ LL A2), bytes_eqb_refl in H. discriminate.
    + intros e1 I1 _ _ A. specialize (H e1 I1). rewrite !andb_true_iff, N.eqb_eq in H. destruct H as ((H1 & _) & H).
      assert (LC : (8 <= List.length (e_cont e1))%nat) by (unfold len in H1; lia). rewrite (asked8 _ _ LC A), bytes_eqb_refl in H. discriminate.
Qed.

Lemma go_app C L far l1 l2 : forall x, go C L far (l1 ++ l2) x = match go C L far l1 x with Some y => go C L far l2 y | None => None end.
Proof.
  induction l1 as [|[a|i stop] l1 IH]; intros x; cbn [go app]; auto. destruct (act1 C L a x); auto.
Qed.

Lemma later_run : exists x y, reach K toy x /\ steps K toy x y /\
  wo_procs x = [(JStore hello, Ret (Some hello_id))] /\ apart K (wo_fs x) /\ len (f_idx (wo_fs x)) = 2 /\
  wo_procs y = [(JStore hello, Ret (Some hello_id)); (JStore other, Die DKill); (JStore one, Ret (Some one_id))] /\
  new_apart K (wo_fs x) (wo_fs y).
Proof.
  pose (l1 := each [JStore hello] 0).
  pose (l2 := [PA (AStart (JStore other)); PRun 1 is_ins; PA (ACall 1); PA (AKill 1); PA (AStart (JStore one)); PRun 2 never]).
  pose (chk := match go K toy lim l1 w0 with
    | Some x => all_as [inl (Some hello_id)] 0 x && quiet 2 x &&
        match go K toy lim l2 x with
        | Some y => all_as [inl (Some hello_id); inr DKill; inl (Some one_id)] 0 y && later (f_idx (wo_fs x)) (f_idx (wo_fs y))
        | None => false
        end
    | None => false end).
  assert (H : chk = true) by (vm_cast_no_check (eq_refl true)). unfold chk in H. clear chk.
  destruct (go K toy lim l1 w0) as [x|] eqn:G1; [|discriminate]. rewrite !andb_true_iff in H. destruct H as ((H1 & H2) & H3).
  destruct (go K toy lim l2 x) as [y|] eqn:G2; [|discriminate]. rewrite !andb_true_iff in H3. destruct H3 as (H3 & H4).
  destruct (quiet_ok _ _ H2) as (Q1 & Q2). pose proof (go_jobs _ _ _ _ _ _ G1) as J1. pose proof (go_jobs _ _ _ _ _ _ G2) as J2. rewrite J1 in J2.
  exists x, y. split; [exists fs0; split; [apply fs0_empty|eapply go_steps; eauto]|]. split; [eapply go_steps; eauto|].
  split; [apply (procs_are x [JStore hello] [inl (Some hello_id)] J1 eq_refl); apply (all_as_ok _ 0 x H1)|].
  split; [auto|]. split; [auto|].
  split; [apply (procs_are y [JStore hello; JStore other; JStore one] [inl (Some hello_id); inr DKill; inl (Some one_id)] J2 eq_refl); apply (all_as_ok _ 0 y H3)|].
  apply later_ok. auto.
Qed.

(* at the same time: commands in turns, every state checked *)
Fixpoint turns (s0 : list ixent) (l : list act) (x : world) : option world :=
  match l with
  | [] => Some x
  | a :: r => match act1 K toy a x with
              | Some y => if later s0 (f_idx (wo_fs y)) then turns s0 r y else None
              | None => turns s0 r x
              end
  end.
Lemma turns_trace s0 l : forall x0 tr x y, trace K toy (fun s => new_apart K s0 s) x0 tr x -> turns (f_idx s0) l x = Some y ->
  exists tr', trace K toy (fun s => new_apart K s0 s) x0 tr' y.
Proof.
  induction l as [|a l IH]; intros x0 tr x y T H; cbn [turns] in H.
  - injection H as <-. eauto.
  - destruct (act1 K toy a x) as [z|] eqn:E; [|eauto]. destruct (later (f_idx s0) (f_idx (wo_fs z))) eqn:LT; [|discriminate].
    apply act1_step in E. destruct E as [[ev|] E].
    + eapply IH; [|exact H]. eapply tr_call; eauto. apply later_ok. auto.
    + eapply IH; [|exact H]. eapply tr_other; eauto. apply later_ok. auto.
Qed.
Lemma later_refl l : later l l = true.
Proof.
  unfold later. apply forallb_forall. intros e He. apply orb_true_iff. left. apply existsb_exists. exists e. split; [auto|].
  unfold ent_eqb. rewrite !bytes_eqb_refl, !N.eqb_refl. reflexivity.
Qed.

Lemma turns_run j l (obs : world -> bool) : job_okb j = true ->
  match go K toy lim (each [JStore hello] 0) w0 with
  | Some x => all_as [inl (Some hello_id)] 0 x && quiet 2 x &&
      match turns (f_idx (wo_fs x)) l (mkWorld (wo_fs x) (wo_procs x ++ [(j, job_prog K toy j)])) with
      | Some y => obs y
      | None => false
      end
  | None => false
  end = true ->
  exists x tr y, reach K toy x /\ wo_procs x = [(JStore hello, Ret (Some hello_id))] /\ apart K (wo_fs x) /\ len (f_idx (wo_fs x)) = 2 /\
    trace K toy (fun s => new_apart K (wo_fs x) s) (mkWorld (wo_fs x) (wo_procs x ++ [(j, job_prog K toy j)])) tr y /\ obs y = true.
Proof.
  intros JO H. destruct (go K toy lim (each [JStore hello] 0) w0) as [x|] eqn:G1; [|discriminate]. rewrite !andb_true_iff in H. destruct H as ((H1 & H2) & H3).
  destruct (turns _ l _) as [y|] eqn:G2; [|discriminate]. destruct (quiet_ok _ _ H2) as (Q1 & Q2).
  assert (T0 : trace K toy (fun s => new_apart K (wo_fs x) s) (mkWorld (wo_fs x) (wo_procs x ++ [(j, job_prog K toy j)])) []
    (mkWorld (wo_fs x) (wo_procs x ++ [(j, job_prog K toy j)]))) by (apply tr_start; apply later_ok; apply later_refl).
  destruct (turns_trace (wo_fs x) l _ _ _ y T0 G2) as (tr & T).
  exists x, tr, y. split; [exists fs0; split; [apply fs0_empty|eapply go_steps; eauto]|].
  split; [apply (procs_are x [JStore hello] [inl (Some hello_id)] (go_jobs _ _ _ _ _ _ G1) eq_refl); apply (all_as_ok _ 0 x H1)|].
  split; [auto|]. split; [auto|]. split; auto.
Qed.

Definition by_turns : list act := AStart (JStore other) :: List.concat (repeat [ACall 1; ACall 2] 50).
Lemma get_turns : exists x tr y, reach K toy x /\ wo_procs x = [(JStore hello, Ret (Some hello_id))] /\ apart K (wo_fs x) /\ len (f_idx (wo_fs x)) = 2 /\
  trace K toy (fun s => new_apart K (wo_fs x) s) (mkWorld (wo_fs x) (wo_procs x ++ [(JGet false hello_id, main_get K toy false hello_id)])) tr y /\
  (returned 1 (str "Hello, world") y && returned 2 other_id y) = true.
Proof.
  apply (turns_run (JGet false hello_id) by_turns (fun y => returned 1 (str "Hello, world") y && returned 2 other_id y)); [reflexivity|]. vm_cast_no_check (eq_refl true).
Qed.
Lemma again_turns : exists x tr y, reach K toy x /\ wo_procs x = [(JStore hello, Ret (Some hello_id))] /\ apart K (wo_fs x) /\ len (f_idx (wo_fs x)) = 2 /\
  trace K toy (fun s => new_apart K (wo_fs x) s) (mkWorld (wo_fs x) (wo_procs x ++ [(JStore hello, job_prog K toy (JStore hello))])) tr y /\
  (returned 1 hello_id y && returned 2 other_id y) = true.
Proof.
  apply (turns_run (JStore hello) by_turns (fun y => returned 1 hello_id y && returned 2 other_id y)); [reflexivity|]. vm_cast_no_check (eq_refl true).
Qed.
