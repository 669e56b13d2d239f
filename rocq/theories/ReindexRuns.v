(* Runs of the model: archives which reindex puts right, and which it does not. *)
From Coq Require Import String Sorting.Sorted Permutation.
From Coq Require Import ZifyBool ZifyNat ZifyN.
From Verif Require Import Base BaseLemmas ListLemmas IndexModel IndexSpec HeaderModel HeaderSpec HeaderProofs GzipModel GzipSpec
  ProgModel StoreModel StoreSpec StoreSysModel StoreWp StoreSys StoreHdr StoreGet StoreWorld StoreOrigin StoreToy StoreToyOk StoreWit StoreRuns
  ReindexModel ReindexSpec ReindexProofs ReindexMain.
Open Scope string_scope.
Open Scope list_scope.
Open Scope N_scope.

(** * The silos of an archive *)

Definition by_number (s : fs) (ns : list N) : list (N * bytes) :=
  flat_map (fun n => match f_silo s n with Some (b, _) => [(n, b)] | None => [] end) ns.

Lemma by_number_ok C L s ns : inv C L s -> (forall n, f_hold s n = None) -> NoDup ns -> (forall e, In e (f_idx s) -> In (e_silo e) ns) ->
  silos_of s (by_number s ns).
Proof.
  intros I H N NE. unfold by_number.
  assert (A : forall n, f_silo s n <> None -> In n ns).
  { intros n F. pose proof (quiet_settled C L s n I (H n)) as S. destruct (f_silo s n) as [(b, w)|]; [|congruence].
    cbn [settled] in S. destruct S as (w0 & l & es & _ & _ & _ & _ & P & F2). inversion F2 as [|x e l1 l2 E _ X Y]; subst.
    destruct E as (E & _). rewrite <- E. apply NE.
    assert (IE : In e (entries s n)) by (eapply Permutation_in; [symmetry; exact P|left; auto]). apply filter_In in IE. apply IE. }
  clear NE. split.
  - clear A. induction ns as [|n ns IH]; cbn [flat_map]; [constructor|]. inversion N as [|? ? N1 N2]; subst. rewrite map_app.
    destruct (f_silo s n) as [(b, w)|]; cbn [map app fst]; [|auto]. constructor; [|auto]. intros X. apply N1. clear - X.
    apply in_map_iff in X. destruct X as ((m, b') & E & X). cbn [fst] in E. subst m. apply in_flat_map in X. destruct X as (m & M & X).
    destruct (f_silo s m) as [(b2, w)|]; [|destruct X]. destruct X as [X|[]]. injection X as -> _. auto.
  - intros n b. split.
    + intros X. apply in_flat_map in X. destruct X as (m & M & X). destruct (f_silo s m) as [(b2, w)|] eqn:F; [|destruct X]. destruct X as [X|[]].
      injection X as <- <-. eauto.
    + intros (w & F). apply in_flat_map. exists n. split; [apply A; congruence|]. rewrite F. left. auto.
Qed.

Definition silos_in (s : fs) : list (N * bytes) := by_number s (nodup N.eq_dec (map e_silo (f_idx s))).
Lemma silos_in_ok C L s : inv C L s -> (forall n, f_hold s n = None) -> silos_of s (silos_in s).
Proof. intros I H. apply (by_number_ok C L); auto; [apply NoDup_nodup|]. intros e He. apply nodup_In. apply in_map. auto. Qed.

Definition six : list N := [0; 1; 2; 3; 4; 5].
Lemma six_ok x : reach K toy x -> (forall j p, In (j, p) (wo_procs x) -> exists a, p = Ret a) ->
  forallb (fun e => e_silo e <? 6) (f_idx (wo_fs x)) = true -> silos_of (wo_fs x) (by_number (wo_fs x) six).
Proof.
  intros R E O. apply (by_number_ok K toy).
  - apply (reach_inv K toy K_ok toy_ok); auto.
  - apply (all_done K toy K_ok toy_ok x R). auto.
  - repeat constructor; cbn; intuition discriminate.
  - intros e He. rewrite forallb_forall in O. specialize (O e He). assert (LT : e_silo e < 6) by lia. revert LT. generalize (e_silo e). intros k LT. cbn [In six].
    destruct (N.eq_dec k 0); [auto|]. destruct (N.eq_dec k 1); [auto|]. destruct (N.eq_dec k 2); [auto|]. destruct (N.eq_dec k 3); [auto 6|].
    destruct (N.eq_dec k 4); [auto 7|]. destruct (N.eq_dec k 5); [auto 8|]. lia.
Qed.

(* every segment once *)
Definition seg_head (s : fs) (e : ixent) : option (bytes * bytes * option bytes) :=
  match f_silo s (e_silo e) with
  | Some (b, _) =>
      match Rsilo_ReadHeader K b (e_off e) with
      | Ok (Some (hd, _, _)) =>
          match hget hd "WARC-Segment-Number" with
          | Some v => Some (v, h_id hd, hget hd "WARC-Segment-Origin-ID")
          | None => None
          end
      | _ => None
      end
  | None => None
  end.
Definition onceb (s : fs) : bool :=
  let l := map (fun e => (seg_head s e, e_silo e, e_off e)) (f_idx s) in
  forallb (fun x => forallb (fun y =>
    match x, y with
    | (Some (v, i, o), n, a), (Some (v', i', o'), n', a') =>
        negb (bytes_eqb v v') || (n =? n') && (a =? a') ||
        (if bytes_eqb v (str "1") then negb (bytes_eqb i i') else
           match o, o' with Some p, Some q => negb (bytes_eqb p q) | _, _ => true end)
    | _, _ => true
    end) l) l.

Lemma onceb_ok s : onceb s = true -> once K toy s.
Proof.
  intros H n o w e n' o' w' e' id k A A' S S'.
  assert (G : forall n o w e, in_archive K toy s n o w e -> segment_of K w id k ->
    e_silo e = n /\ e_off e = o /\ hsorted (h_fields (wr_hdr w)) /\ In e (f_idx s) /\
    seg_head s e = Some (dec k, h_id (wr_hdr w), hget (wr_hdr w) "WARC-Segment-Origin-ID")).
  { clear. intros n o w e A (S & _). destruct (at_entry K toy K_ok _ _ _ _ _ A) as (b & a & H & B & z & wr & F & _ & _ & HS & R).
    pose proof A as (I & (E1 & E2 & _) & _). split; [auto|]. split; [auto|]. split; [auto|]. split; [auto|]. unfold seg_head. rewrite F, R.
    apply has_get in S; auto. rewrite S. reflexivity. }
  destruct (G _ _ _ _ A S) as (X1 & X2 & X3 & X4 & X5). destruct (G _ _ _ _ A' S') as (Y1 & Y2 & Y3 & Y4 & Y5).
  unfold onceb in H. rewrite forallb_forall in H.
  specialize (H (seg_head s e, e_silo e, e_off e) (in_map (fun e => (seg_head s e, e_silo e, e_off e)) _ _ X4)). rewrite forallb_forall in H.
  specialize (H (seg_head s e', e_silo e', e_off e') (in_map (fun e => (seg_head s e, e_silo e, e_off e)) _ _ Y4)).
  rewrite X5, Y5, X1, X2, Y1, Y2, bytes_eqb_refl in H. cbn [negb orb] in H. rewrite orb_true_iff, andb_true_iff, !N.eqb_eq in H. destruct H as [H|H]; [auto|].
  exfalso. destruct S as (_ & S), S' as (_ & S'). destruct (bytes_eqb (dec k) (str "1")) eqn:E.
  - apply bytes_eqb_true in E. change (str "1") with (dec 1) in E. apply dec_inj in E. subst k. change (1 =? 1) with true in S, S'. cbv iota in S, S'.
    rewrite S, S', bytes_eqb_refl in H. discriminate H.
  - destruct (k =? 1) eqn:X; [apply N.eqb_eq in X; subst k; discriminate E|]. apply has_get in S, S'; auto. rewrite S, S', bytes_eqb_refl in H. discriminate H.
Qed.

(** * An archive which is put right *)

Definition perm_of (x y : list ixent) : bool :=
  forallb (fun e => existsb (ent_eqb e) y) x && forallb (fun e => existsb (ent_eqb e) x) y && (len x =? len y).

(* The silos as files whose names do not begin with the number: silo.basename is
   "silo%08u.warc.gz" *)
Definition zeros8 (n : N) : bytes := repeat 48 (8 - List.length (dec n)) ++ dec n.
Definition files_called (s : fs) (name : N -> bytes) : list (bytes * bytes) :=
  map (fun p => (name (fst p), snd p)) (by_number s six).
Definition silo_name (n : N) : bytes := str "/archive/0/0/silo" ++ zeros8 n ++ str ".warc.gz".
Definition default_name (n : N) : bytes := str "/archive/0/0/" ++ zeros8 n ++ str ".warc.gz".
Definition misses (s : fs) (r : res (list iop * list seg)) : bool :=
  match r with
  | Ok (ops, []) => existsb (fun e => negb (existsb (ent_eqb e) (ideal_ops ops))) (f_idx s) &&
      existsb (fun e => negb (existsb (ent_eqb e) (f_idx s))) (ideal_ops ops)
  | _ => false
  end.
Definition named_run (s : fs) (name : N -> bytes) : res (list iop * list seg) :=
  let* l := named_silos (files_called s name) in all_silos K l [].

(* an object and one in two segments *)
Lemma both_run : exists x, reach K toy x /\
  wo_procs x = [(JStore hello, Ret (Some hello_id)); (JStore big, Ret (Some big_id))] /\
  onceb (wo_fs x) = true /\ len (f_idx (wo_fs x)) = 6 /\ forallb (fun e => e_silo e <? 6) (f_idx (wo_fs x)) = true /\
  misses (wo_fs x) (named_run (wo_fs x) silo_name) = true /\ List.length (by_number (wo_fs x) six) = 3%nat.
Proof.
  destruct (go_all (each [JStore hello; JStore big] 0) [inl (Some hello_id); inl (Some big_id)]
    (fun x => onceb (wo_fs x) && (len (f_idx (wo_fs x)) =? 6) && forallb (fun e => e_silo e <? 6) (f_idx (wo_fs x)) &&
       misses (wo_fs x) (named_run (wo_fs x) silo_name) && Nat.eqb (List.length (by_number (wo_fs x) six)) 3)) as (x & R & E & O).
  - vm_cast_no_check (eq_refl true).
  - reflexivity.
  - rewrite !andb_true_iff, N.eqb_eq, Nat.eqb_eq in O. destruct O as ((((O1 & O2) & O3) & O4) & O5). exists x. split; [auto|]. split; [exact E|]. auto.
Qed.

Lemma both_ended x : wo_procs x = [(JStore hello, Ret (Some hello_id)); (JStore big, Ret (Some big_id))] ->
  forall j p, In (j, p) (wo_procs x) -> exists a, p = Ret a.
Proof. intros E j p H. rewrite E in H. cbn in H. destruct H as [X|[X|[]]]; injection X as <- <-; eauto. Qed.

Lemma reindex_run : exists x, reach K toy x /\
  wo_procs x = [(JStore hello, Ret (Some hello_id)); (JStore big, Ret (Some big_id))] /\
  once K toy (wo_fs x) /\ silos_of (wo_fs x) (silos_in (wo_fs x)) /\ len (f_idx (wo_fs x)) = 6.
Proof.
  destruct both_run as (x & R & E & O1 & O2 & _). exists x. split; [auto|]. split; [exact E|]. split; [apply onceb_ok; auto|].
  split; [|auto]. apply (silos_in_ok K toy).
  - apply (reach_inv K toy K_ok toy_ok); auto.
  - apply (all_done K toy K_ok toy_ok x R). apply both_ended. auto.
Qed.

Lemma settled_run : exists s, archive_ok K toy s /\ date_ok (f_clock s) /\ (forall n, f_hold s n = None) /\ whole K toy s /\ once K toy s /\
  silos_of s (silos_in s) /\ len (f_idx s) = 6.
Proof.
  destruct reindex_run as (x & R & E & O & S & L). exists (wo_fs x).
  pose proof (reach_inv K toy K_ok toy_ok x R) as (A & D). split; [exact A|]. split; [exact D|]. split.
  - apply (all_done K toy K_ok toy_ok x R). apply both_ended. auto.
  - split; [|auto]. apply (ended_whole K toy K_ok toy_ok x R). apply both_ended. auto.
Qed.

Lemma ent_eqb_in e l : existsb (ent_eqb e) l = false -> ~ In e l.
Proof.
  intros F X. assert (T : existsb (ent_eqb e) l = true).
  { apply existsb_exists. exists e. split; [auto|]. unfold ent_eqb. rewrite !bytes_eqb_refl, !N.eqb_refl. reflexivity. }
  congruence.
Qed.

(* the default name of a silo, in a directory *)
Lemma default_named_small n : n < 6 -> named_after (default_name n) n.
Proof.
  intros H. assert (X : n = 0 \/ n = 1 \/ n = 2 \/ n = 3 \/ n = 4 \/ n = 5) by lia.
  repeat destruct X as [->|X]; try subst n;
  (eexists (str "/archive/0/0"), (zeros8 _), (str ".warc.gz"); split; [reflexivity|]; split; [discriminate|];
   split; [repeat constructor|]; split; [reflexivity|]; split; [|reflexivity]; cbn; intuition discriminate).
Qed.

Lemma default_files : exists x files silos, reach K toy x /\ (forall j p, In (j, p) (wo_procs x) -> exists a, p = Ret a) /\
  silos_of (wo_fs x) silos /\ Forall2 (fun f p => named_after (fst f) (fst p) /\ fst p < 2 ^ 64 /\ snd f = snd p) files silos /\ List.length files = 3%nat.
Proof.
  destruct both_run as (x & R & E & O1 & O2 & O3 & _ & O5). exists x, (files_called (wo_fs x) default_name), (by_number (wo_fs x) six).
  split; [auto|]. split; [apply both_ended; auto|]. pose proof (six_ok x R (both_ended x E) O3) as S. split; [exact S|]. split.
  - unfold files_called. assert (F : Forall (fun p => fst p < 6) (by_number (wo_fs x) six)).
    { apply Forall_forall. intros (n, b) H. unfold by_number in H. apply in_flat_map in H. destruct H as (k & Hk & H).
      destruct (f_silo (wo_fs x) k) as [[b' w]|]; [|destruct H]. destruct H as [X|[]]. injection X as <- <-.
      cbn in Hk. cbn [fst]. intuition (subst; reflexivity). }
    clear - F. induction F as [|p l Hp F IH]; cbn [map]; constructor; auto. cbn [fst snd]. split; [apply default_named_small; auto|].
    split; [lia|auto].
  - unfold files_called. rewrite map_length. auto.
Qed.

Lemma refuted_names : exists C L x silos name ops e e', conf_ok C /\ zlib_ok L /\ reach C L x /\
  (forall j p, In (j, p) (wo_procs x) -> exists a, p = Ret a) /\ once C L (wo_fs x) /\ silos_of (wo_fs x) silos /\
  (forall n, name n = str "/archive/0/0/silo" ++ repeat 48 (8 - List.length (dec n)) ++ dec n ++ str ".warc.gz") /\
  (forall es, main_reindex_named C es (map (fun p => (name (fst p), snd p)) silos) = Ok (ops, [])) /\
  In e (f_idx (wo_fs x)) /\ ~ In e (ideal_ops ops) /\ In e' (ideal_ops ops) /\ ~ In e' (f_idx (wo_fs x)).
Proof.
  destruct both_run as (x & R & E & O1 & O2 & O3 & O4 & _). unfold misses in O4.
  destruct (named_run (wo_fs x) silo_name) as [(ops & [|sg l])| | |] eqn:A; try discriminate O4.
  rewrite andb_true_iff, !existsb_exists in O4. destruct O4 as ((e & He & NE) & (e' & He' & NE')). apply negb_true_iff in NE, NE'.
  exists K, toy, x, (by_number (wo_fs x) six), silo_name, ops, e, e'. split; [exact K_ok|]. split; [exact toy_ok|]. split; [auto|].
  split; [apply both_ended; auto|]. split; [apply onceb_ok; auto|]. split; [apply six_ok; auto; apply both_ended; auto|].
  split; [intros n; unfold silo_name, zeros8; rewrite <- app_assoc; reflexivity|]. split.
  - intros es. unfold named_run in A. change (main_reindex_named K es (files_called (wo_fs x) silo_name) = Ok (ops, [])). unfold main_reindex_named.
    destruct (named_silos (files_called (wo_fs x) silo_name)) as [l| | |]; try discriminate A. cbn [bind] in *. unfold main_reindex. rewrite A. reflexivity.
  - split; [auto|]. split; [apply ent_eqb_in; auto|]. split; [auto|]. apply ent_eqb_in; auto.
Qed.

(** * Objects stored twice at the same time *)

Definition stat_of (k : N) (c : call) : bool := match c with CStat n => n =? k | CStatHold n => n =? k | _ => false end.

(* The same object of three segments twice at the same time: both are stored, and
   reindex fails. *)
Definition three : request := st (count 22000).
Definition three_id : bytes := idof "8069440437df70b97c7cc6619c894ef8".
Definition abortedb {A} (r : res A) : bool := match r with Abort => true | _ => false end.

Lemma twice_abort : exists x, reach K toy x /\
  wo_procs x = [(JStore three, Ret (Some three_id)); (JStore three, Ret (Some three_id))] /\
  silos_of (wo_fs x) (by_number (wo_fs x) six) /\
  forall es, main_reindex K es (by_number (wo_fs x) six) = Abort.
Proof.
  destruct (go_all [PA (AStart (JStore three)); PRun 0 (stat_of 2); PA (AStart (JStore three)); PRun 1 is_ins; PRun 0 never; PRun 1 never]
    [inl (Some three_id); inl (Some three_id)]
    (fun x => abortedb (all_silos K (by_number (wo_fs x) six) []) && forallb (fun e => e_silo e <? 6) (f_idx (wo_fs x)))) as (x & R & E & O).
  - vm_cast_no_check (eq_refl true).
  - reflexivity.
  - rewrite andb_true_iff in O. destruct O as (O1 & O2). exists x. split; [auto|]. split; [exact E|]. split.
    + apply six_ok; auto. intros j p H. rewrite E in H. cbn in H. destruct H as [X|[X|[]]]; injection X as <- <-; eauto.
    + intros es. unfold main_reindex. destruct (all_silos K _ []); try discriminate O1. reflexivity.
Qed.

(* Two pieces of input where the other command has one: the object is split at
   different places.  reindex ends well, but it takes the first segment of the one
   together with the second segment of the other. *)
Definition lacks (s : fs) (r : res (list iop * list seg)) : bool :=
  match r with
  | Ok (ops, []) => existsb (fun e => negb (existsb (ent_eqb e) (ideal_ops ops))) (f_idx s)
  | _ => false
  end.

Lemma crossed : exists x ops e, reach K toy x /\
  wo_procs x = [(JStore five_once, Ret (Some five_id)); (JStore five_twice, Ret (Some five_id))] /\
  silos_of (wo_fs x) (by_number (wo_fs x) six) /\
  (forall es, main_reindex K es (by_number (wo_fs x) six) = Ok (ops, [])) /\
  In e (f_idx (wo_fs x)) /\ ~ In e (ideal_ops ops).
Proof.
  destruct (go_all [PA (AStart (JStore five_once)); PRun 0 (stat_of 1); PA (AStart (JStore five_twice)); PRun 1 is_ins; PRun 0 never; PRun 1 never]
    [inl (Some five_id); inl (Some five_id)]
    (fun x => lacks (wo_fs x) (all_silos K (by_number (wo_fs x) six) []) && forallb (fun e => e_silo e <? 6) (f_idx (wo_fs x)))) as (x & R & E & O).
  - vm_cast_no_check (eq_refl true).
  - reflexivity.
  - rewrite andb_true_iff in O. destruct O as (O1 & O2). unfold lacks in O1.
    destruct (all_silos K (by_number (wo_fs x) six) []) as [(ops & [|sg l])| | |] eqn:A; try discriminate O1.
    apply existsb_exists in O1. destruct O1 as (e & He & NE). exists x, ops, e. split; [auto|]. split; [exact E|]. split; [|split; [|split]].
    + apply six_ok; auto. intros j p H. rewrite E in H. cbn in H. destruct H as [X|[X|[]]]; injection X as <- <-; eauto.
    + intros es. unfold main_reindex. rewrite A. reflexivity.
    + exact He.
    + intros X. apply negb_true_iff in NE. assert (T : existsb (ent_eqb e) (ideal_ops ops) = true).
      { apply existsb_exists. exists e. split; [auto|]. unfold ent_eqb. rewrite !bytes_eqb_refl, !N.eqb_refl. reflexivity. }
      congruence.
Qed.

Lemma refuted_twice_abort : exists C L x r b silos, conf_ok C /\ zlib_ok L /\ reach C L x /\
  wo_procs x = [(JStore r, Ret (Some b)); (JStore r, Ret (Some b))] /\ silos_of (wo_fs x) silos /\
  forall es, main_reindex C es silos = Abort.
Proof.
  destruct twice_abort as (x & R & E & S & A). exists K, toy, x, three, three_id, (by_number (wo_fs x) six).
  split; [exact K_ok|]. split; [exact toy_ok|]. split; [auto|]. split; [exact E|]. split; [exact S|exact A].
Qed.

Lemma refuted_crossed : exists C L x r1 r2 b silos ops e, conf_ok C /\ zlib_ok L /\ reach C L x /\
  wo_procs x = [(JStore r1, Ret (Some b)); (JStore r2, Ret (Some b))] /\
  List.concat (r_data r1) = List.concat (r_data r2) /\ silos_of (wo_fs x) silos /\
  (forall es, main_reindex C es silos = Ok (ops, [])) /\ In e (f_idx (wo_fs x)) /\ ~ In e (ideal_ops ops).
Proof.
  destruct crossed as (x & ops & e & R & E & S & A & B & D). exists K, toy, x, five_once, five_twice, five_id, (by_number (wo_fs x) six), ops, e.
  split; [exact K_ok|]. split; [exact toy_ok|]. split; [auto|]. split; [exact E|]. split.
  - unfold five_once, five_twice, st. cbn [r_data List.concat]. rewrite !app_nil_r, firstn_skipn. reflexivity.
  - split; [exact S|]. split; [exact A|]. split; [exact B|exact D].
Qed.
