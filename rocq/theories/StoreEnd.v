(* The results about stores and gets in the form PStore states them in. *)
From Coq Require Import String Permutation.
From Coq Require Import ZifyBool ZifyNat ZifyN.
From Verif Require Import Base BaseLemmas ListLemmas IndexModel IndexSpec HeaderModel HeaderSpec InflateSpec GzipModel GzipSpec
  ProgModel StoreModel StoreSpec StoreSysModel StoreToy StoreToyOk StoreWp StoreMain StoreWorld StoreAgain StoreOrigin StoreWit StoreRuns StoreWit39.
Open Scope string_scope.
Open Scope list_scope.
Open Scope N_scope.

Section End_.
Variable C : conf.
Variable L : zlib.
Hypothesis CO : conf_ok C.
Hypothesis ZO : zlib_ok L.

Lemma max_size x n b w : reach C L x -> f_silo (wo_fs x) n = Some (b, w) -> len b <= c_max C.
Proof. intros R. destruct (reach_inv C L CO ZO x R) as ((_ & B & _) & _). apply B. Qed.

Lemma append_only x y n b w : reach C L x -> steps C L x y -> f_silo (wo_fs x) n = Some (b, w) ->
  exists t w', f_silo (wo_fs y) n = Some (b ++ t, w') /\ (w = false -> t = [] /\ w' = false).
Proof. intros R S. destruct (reach_grow C L CO ZO x y R S) as (_ & G & _). apply G. Qed.

Lemma entries_stay x y : reach C L x -> steps C L x y -> exists ex, Permutation (f_idx (wo_fs y)) (f_idx (wo_fs x) ++ ex).
Proof. intros R S. destruct (reach_grow C L CO ZO x y R S) as (_ & _ & G). exact G. Qed.

Lemma offsets x e : reach C L x -> In e (f_idx (wo_fs x)) ->
  (exists w, in_archive C L (wo_fs x) (e_silo e) (e_off e) w e) \/
  (exists h, f_hold (wo_fs x) (e_silo e) = Some h /\ good_in C L (e_silo e) h e).
Proof. intros R. apply entry_place. apply reach_inv; auto. Qed.

Lemma index_end x : reach C L x -> (forall j p, In (j, p) (wo_procs x) -> exists a, p = Ret a) ->
  (forall e, In e (f_idx (wo_fs x)) -> exists w, in_archive C L (wo_fs x) (e_silo e) (e_off e) w e) /\
  (forall n b w, f_silo (wo_fs x) n = Some (b, w) -> silo_ok C L n b (entries (wo_fs x) n)) /\
  (forall n, f_hold (wo_fs x) n = None).
Proof.
  intros R AD. pose proof (all_done C L CO ZO x R AD) as Q. pose proof (reach_inv C L CO ZO x R) as I. split; [|split; [|exact Q]].
  - intros e H. apply entry_settled; auto.
  - intros n b w F. pose proof (quiet_settled C L _ n I (Q n)) as S. rewrite F in S. exact S.
Qed.

Lemma stays x y typ id data ps : reach C L x -> steps C L x y ->
  stored_as C L (wo_fs x) typ id data ps -> stored_as C L (wo_fs y) typ id data ps.
Proof. intros R S H. eapply stored_rely; [exact H|]. apply (reach_grow C L CO ZO); auto. Qed.

Lemma cache_always x c : reach C L x -> f_cache (wo_fs x) = Some c -> cache_ok C (wo_fs x) c.
Proof. intros R. destruct (reach_inv C L CO ZO x R) as ((_ & _ & B) & _). apply B. Qed.

Lemma no_gaps x n b w : reach C L x -> f_hold (wo_fs x) n = None -> f_silo (wo_fs x) n = Some (b, w) -> exists l, layout C L 0 b l.
Proof.
  intros R H F. pose proof (quiet_settled C L _ n (reach_inv C L CO ZO x R) H) as S. rewrite F in S. destruct S as (w0 & l & _ & LY & _). eauto.
Qed.

Lemma in_describes s n o w e : in_archive C L s n o w e -> describes (z_sha L) (wr_hdr w) (wr_data w).
Proof. intros (_ & _ & b & wr & a & r & z & _ & _ & _ & H & B & _ & D & _). exact D. Qed.
Lemma chain_in s id data ps : forall k, chain C L s id data k ps -> Forall (fun q => in_archive C L s (p_silo q) (p_off q) (p_rec q) (p_ent q)) ps.
Proof.
  induction ps as [|p r IH]; intros k H; [constructor|]. cbn [chain] in H. destruct H as ((A & _) & H). constructor; [exact A|].
  destruct r as [|q r]; [constructor|]. destruct H as (_ & _ & H). eapply IH; eauto.
Qed.
Lemma stored_in s t id data ps : stored_as C L s t id data ps -> Forall (fun q => in_archive C L s (p_silo q) (p_off q) (p_rec q) (p_ent q)) ps.
Proof.
  intros (_ & H). destruct ps as [|p [|q r]]; [constructor| |].
  - destruct H as (_ & H & _). constructor; [exact H|constructor].
  - destruct H as (_ & H). eapply chain_in; eauto.
Qed.

Lemma segments x r b : reach C L x -> In (JStore r, Ret (Some b)) (wo_procs x) ->
  exists id, b = c_prefix C ++ id /\ len id = c_idsize C /\ hexstr id /\ req_id C (z_sha L) r id /\
  ((exists p rest, stored_as C L (wo_fs x) (req_type r) id (List.concat (r_data r)) (p :: rest) /\
      has (wr_hdr (p_rec p)) "Content-Type" (r_mime r) /\
      (r_meta r = true -> has (wr_hdr (p_rec p)) "WARC-Refers-To" (str "<" ++ full_ref C r ++ str ">")) /\
      Forall (fun q => describes (z_sha L) (wr_hdr (p_rec q)) (wr_data (p_rec q))) (p :: rest)) \/
   ((forall n, f_hold (wo_fs x) n = None) -> exists w, present C L (wo_fs x) id w)).
Proof.
  intros R HI. destruct (store_outcome C L CO ZO x r _ R HI) as (id & E & HX & LI & RI & OC). injection E as ->.
  exists id. split; [auto|]. split; [auto|]. split; [exact HX|]. split; [auto|]. destruct OC as [(p & rest & ST & CT & RT)|PR]; [left|right; exact PR].
  exists p, rest. split; [auto|]. split; [auto|]. split; [auto|]. eapply Forall_impl; [|eapply stored_in; exact ST]. intros q. apply in_describes.
Qed.

Lemma pieces x r1 r2 b1 b2 : reach C L x ->
  In (JStore r1, Ret (Some b1)) (wo_procs x) -> In (JStore r2, Ret (Some b2)) (wo_procs x) ->
  r_meta r1 = r_meta r2 -> r_ref r1 = r_ref r2 -> r_ident r1 = r_ident r2 ->
  List.concat (r_data r1) = List.concat (r_data r2) -> b1 = b2.
Proof.
  intros R H1 H2 EM ER EI ED. destruct (store_outcome C L CO ZO x r1 _ R H1) as (i1 & E1 & _ & _ & R1 & _).
  destruct (store_outcome C L CO ZO x r2 _ R H2) as (i2 & E2 & _ & _ & R2 & _). injection E1 as ->. injection E2 as ->. f_equal.
  apply (req_id_fun C L r2); [|auto]. unfold req_id, full_ref in *. rewrite EM, ER, EI, ED in R1. exact R1.
Qed.

Lemma refers x r b : reach C L x -> In (JStore r, Ret (Some b)) (wo_procs x) ->
  r_meta r = true -> (forall n, f_hold (wo_fs x) n = None) ->
  exists rid w, good_id (c_prefix C) (c_idsize C) (full_ref C r) rid /\ present C L (wo_fs x) rid w.
Proof.
  intros R H M Q. destruct (meta_refers C L CO ZO x r _ R H M Q) as (rid & w & V & P). exists rid, w. split; [apply valid_iff; auto|auto].
Qed.

Lemma digest_right x arg d : reach C L x -> In (JGet false arg, Ret (Some d)) (wo_procs x) ->
  (forall n, f_hold (wo_fs x) n = None) ->
  exists nid w, good_id (c_prefix C) (c_idsize C) arg nid /\ present C L (wo_fs x) nid w /\
    (has (wr_hdr w) "WARC-Type" (str "resource") -> lower (firstn (N.to_nat (c_idsize C)) (z_sha L d)) = lower nid).
Proof.
  intros R H Q. destruct (get_digest C L CO ZO x arg d R H Q) as (nid & w & V & P & D). exists nid, w. split; [apply valid_iff; auto|]. split; auto.
Qed.
End End_.

(** * Cases *)

Definition holds_none (x : world) : Prop := forall n, f_hold (wo_fs x) n = None.

Definition silo_is (n k : N) (x : world) : bool := match f_silo (wo_fs x) n with Some (b, true) => len b =? k | _ => false end.
Lemma silo_is_ok n k x : silo_is n k x = true -> exists b, f_silo (wo_fs x) n = Some (b, true) /\ len b = k.
Proof. unfold silo_is. destruct (f_silo (wo_fs x) n) as [[b []]|]; try discriminate. rewrite N.eqb_eq. eauto. Qed.

Definition cache_is (c : N * N) (x : world) : bool := match f_cache (wo_fs x) with Some d => (fst c =? fst d) && (snd c =? snd d) | None => false end.
Lemma cache_is_ok c x : cache_is c x = true -> f_cache (wo_fs x) = Some c.
Proof.
  unfold cache_is. destruct (f_cache (wo_fs x)) as [[a b]|]; [|discriminate]. destruct c as [c d]. cbn [fst snd]. rewrite andb_true_iff, !N.eqb_eq.
  intros (-> & ->). reflexivity.
Qed.

Lemma full_run : exists x, reach K toy x /\
  wo_procs x = [(JStore hello, Ret (Some hello_id)); (JStore big, Ret (Some big_id)); (JStore about_big, Ret (Some about_id));
                (JStore hello, Ret (Some hello_id)); (JGet false hello_id, Ret (Some (str "Hello, world")))] /\
  apart K (wo_fs x) /\ len (f_idx (wo_fs x)) = 7 /\ (exists b, f_silo (wo_fs x) 1 = Some (b, true) /\ len b = 11986) /\
  f_cache (wo_fs x) = Some (3, 0).
Proof.
  destruct (go_all (each [JStore hello; JStore big; JStore about_big; JStore hello; JGet false hello_id] 0)
    [inl (Some hello_id); inl (Some big_id); inl (Some about_id); inl (Some hello_id); inl (Some (str "Hello, world"))]
    (fun x => quiet 7 x && silo_is 1 11986 x && cache_is (3, 0) x)) as (x & R & E & O).
  - vm_cast_no_check (eq_refl true).
  - reflexivity.
  - rewrite !andb_true_iff in O. destruct O as ((O1 & O2) & O3). destruct (quiet_ok _ _ O1) as (Q1 & Q2).
    exists x. split; [auto|]. split; [exact E|]. split; [auto|]. split; [auto|]. split; [apply silo_is_ok; auto|apply cache_is_ok; auto].
Qed.

Ltac full x R E AP LE SI CA := destruct full_run as (x & R & E & AP & LE & SI & CA).
Lemma five_ended x a b c d e f g h i j : wo_procs x = [(a, Ret b); (c, Ret d); (e, Ret f); (g, Ret h); (i, Ret j)] ->
  forall k p, In (k, p) (wo_procs x) -> exists a, p = Ret a.
Proof. intros -> k p H. cbn [In] in H. repeat (destruct H as [H|H]; [injection H as _ <-; eauto|]). destruct H. Qed.
Lemma fuel_7 x : len (f_idx (wo_fs x)) = 7 -> (List.length (f_idx (wo_fs x)) <= c_fuel K)%nat.
Proof. unfold len. cbn [K toy_conf c_fuel]. lia. Qed.
Lemma holds_7 x a b c d e f g h i j : reach K toy x -> wo_procs x = [(a, Ret b); (c, Ret d); (e, Ret f); (g, Ret h); (i, Ret j)] ->
  forall n, f_hold (wo_fs x) n = None.
Proof. intros R E. apply (all_done K toy K_ok toy_ok x R). eapply five_ended; exact E. Qed.
Lemma only_one x r1 b1 r2 b2 r3 b3 g d : wo_procs x = [(JStore r1, Ret (Some b1)); (JStore r2, Ret (Some b2)); (JStore r3, Ret (Some b3)); (JStore r1, Ret (Some b1)); (JGet false g, Ret d)] ->
  bytes_eqb (lower b1) (lower b2) = false -> bytes_eqb (lower b3) (lower b2) = false ->
  forall r' b', In (JStore r', Ret (Some b')) (wo_procs x) -> lower b' = lower b2 -> List.concat (r_data r') = List.concat (r_data r2).
Proof.
  intros -> N1 N2 r' b' H EL. cbn [In] in H.
  destruct H as [H|[H|[H|[H|[H|[]]]]]]; [| | | |discriminate]; injection H as <- <-; auto; rewrite EL, bytes_eqb_refl in *; discriminate.
Qed.

Lemma max_size_case : exists x b, conf_ok K /\ zlib_ok toy /\ reach K toy x /\ f_silo (wo_fs x) 1 = Some (b, true) /\ len b = 11986 /\ c_max K = 12000.
Proof. full x R E AP LE SI CA. destruct SI as (b & F & LB). exists x, b. split; [exact K_ok|]. split; [exact toy_ok|]. auto. Qed.

Lemma append_only_case : exists x y b t, reach K toy x /\ steps K toy x y /\ f_silo (wo_fs x) 0 = Some (b, true) /\ f_silo (wo_fs y) 0 = Some (b ++ t, true) /\ t <> [].
Proof.
  pose (l1 := each [JStore hello] 0). pose (l2 := [PA (AStart (JStore other)); PRun 1 never]).
  pose (chk := match go K toy lim l1 w0 with
    | Some x => match go K toy lim l2 x with
        | Some y => match f_silo (wo_fs x) 0, f_silo (wo_fs y) 0 with Some (b, true), Some (c, true) => len b <? len c | _, _ => false end
        | None => false end
    | None => false end).
  assert (H : chk = true) by (vm_cast_no_check (eq_refl true)). unfold chk in H. clear chk.
  destruct (go K toy lim l1 w0) as [x|] eqn:G1; [|discriminate]. destruct (go K toy lim l2 x) as [y|] eqn:G2; [|discriminate].
  destruct (f_silo (wo_fs x) 0) as [[b []]|] eqn:F1; try discriminate H. destruct (f_silo (wo_fs y) 0) as [[c []]|] eqn:F2; try discriminate H.
  assert (R : reach K toy x) by (exists fs0; split; [apply fs0_empty|eapply go_steps; eauto]).
  assert (S : steps K toy x y) by (eapply go_steps; eauto).
  destruct (append_only K toy K_ok toy_ok x y 0 b true R S F1) as (t & w & F3 & _). rewrite F2 in F3. injection F3 as -> <-.
  exists x, y, b, t. split; [auto|]. split; [auto|]. split; [auto|]. split; [auto|]. intros ->. rewrite app_nil_r in H. apply N.ltb_lt in H. exact (N.lt_irrefl _ H).
Qed.

Lemma offsets_case : exists x, reach K toy x /\ len (f_idx (wo_fs x)) = 7.
Proof. full x R E AP LE SI CA. exists x. auto. Qed.
Lemma get_end_case : exists x, reach K toy x /\ (forall j p, In (j, p) (wo_procs x) -> exists a, p = Ret a) /\ apart K (wo_fs x) /\
  In (JStore big, Ret (Some big_id)) (wo_procs x) /\
  (forall r' b', In (JStore r', Ret (Some b')) (wo_procs x) -> lower b' = lower big_id -> List.concat (r_data r') = List.concat (r_data big)) /\
  (List.length (f_idx (wo_fs x)) <= c_fuel K)%nat /\ len (List.concat (r_data big)) = 11500.
Proof.
  full x R E AP LE SI CA. exists x. split; [auto|]. split; [eapply five_ended; exact E|]. split; [auto|]. split; [rewrite E; right; left; reflexivity|].
  split; [eapply only_one; [exact E|reflexivity|reflexivity]|]. split; [apply fuel_7; auto|]. apply N.eqb_eq. vm_cast_no_check (eq_refl true).
Qed.
Lemma getz_end_case : exists x, reach K toy x /\ (forall j p, In (j, p) (wo_procs x) -> exists a, p = Ret a) /\ apart K (wo_fs x) /\
  In (JStore big, Ret (Some big_id)) (wo_procs x) /\ c_max K < 2 ^ 32 /\ comb_ok (z_comb toy) /\ len (List.concat (r_data big)) < 2 ^ 32.
Proof.
  destruct get_end_case as (x & R & AD & AP & HI & _ & _ & LE). exists x. split; [auto|]. split; [auto|]. split; [auto|]. split; [auto|].
  split; [reflexivity|]. split; [intros c1 c2 n _ _; reflexivity|]. rewrite LE. reflexivity.
Qed.
Lemma index_end_case : exists x, reach K toy x /\ (forall j p, In (j, p) (wo_procs x) -> exists a, p = Ret a) /\ len (f_idx (wo_fs x)) = 7.
Proof. full x R E AP LE SI CA. exists x. split; [auto|]. split; [eapply five_ended; exact E|auto]. Qed.
Lemma cache_case : exists x, reach K toy x /\ f_cache (wo_fs x) = Some (3, 0).
Proof. full x R E AP LE SI CA. exists x. auto. Qed.
Lemma no_gaps_case : exists x b, reach K toy x /\ f_hold (wo_fs x) 1 = None /\ f_silo (wo_fs x) 1 = Some (b, true) /\ len b = 11986.
Proof. full x R E AP LE SI CA. destruct SI as (b & F & LB). exists x, b. split; [auto|]. split; [eapply holds_7; eauto|]. auto. Qed.
Lemma refers_case : exists x, reach K toy x /\ In (JStore about_big, Ret (Some about_id)) (wo_procs x) /\ r_meta about_big = true /\
  (forall n, f_hold (wo_fs x) n = None).
Proof. full x R E AP LE SI CA. exists x. split; [auto|]. split; [rewrite E; right; right; left; reflexivity|]. split; [reflexivity|eapply holds_7; eauto]. Qed.
Lemma digest_case : exists x, reach K toy x /\ In (JGet false hello_id, Ret (Some (str "Hello, world"))) (wo_procs x) /\ (forall n, f_hold (wo_fs x) n = None).
Proof. full x R E AP LE SI CA. exists x. split; [auto|]. split; [rewrite E; do 4 right; left; reflexivity|eapply holds_7; eauto]. Qed.

Definition hello_dig : bytes := str "39204683110a6ab20eef50ca542fd162".
Lemma again_end_case : exists x, reach K toy x /\ (forall j p, In (j, p) (wo_procs x) -> exists a, p = Ret a) /\ apart K (wo_fs x) /\
  In (JStore hello, Ret (Some hello_id)) (wo_procs x) /\ (List.length (f_idx (wo_fs x)) <= c_fuel K)%nat /\
  request_ok hello /\ req_id K (z_sha toy) hello hello_dig /\ c_prefix K ++ hello_dig = hello_id /\
  snd (run (main_store K toy hello) (wo_fs x)) = inl hello_id.
Proof.
  destruct (go_all (each [JStore hello; JStore big] 0) [inl (Some hello_id); inl (Some big_id)]
    (fun x => quiet 6 x && match snd (run (main_store K toy hello) (wo_fs x)) with inl b => bytes_eqb b hello_id | _ => false end)) as (x & R & E & O).
  - vm_cast_no_check (eq_refl true).
  - reflexivity.
  - rewrite andb_true_iff in O. destruct O as (O1 & O2). destruct (quiet_ok _ _ O1) as (Q1 & Q2). cbn [each jobs map combine ended app] in E.
    exists x. split; [auto|]. split.
    { intros j p H. rewrite E in H. cbn [In] in H. destruct H as [H|[H|[]]]; injection H as _ <-; eauto. }
    split; [auto|]. split; [rewrite E; left; reflexivity|]. split; [unfold len in Q2; cbn [K toy_conf c_fuel]; lia|].
    split; [apply job_okb_ok with (j := JStore hello); reflexivity|]. split; [vm_compute; reflexivity|]. split; [reflexivity|].
    destruct (snd (run (main_store K toy hello) (wo_fs x))); [|discriminate]. apply bytes_eqb_true in O2. congruence.
Qed.

Lemma reach_history C L x : reach C L x -> exists tr, history C L tr x.
Proof.
  intros (s & E & S). remember (mkWorld s []) as x0. induction S as [a|a b c S IH (l & LS)]; subst.
  - exists []. constructor. auto.
  - destruct (IH eq_refl) as (tr & H). destruct l as [e|].
    + exists (tr ++ [e]). eapply hi_call; eauto.
    + exists tr. eapply hi_other; eauto.
Qed.

Definition at_link (x : world) : bool := match wo_procs x with [(_, Call (CLink 0) _)] => true | _ => false end.
Lemma locks_case : exists tr x e y, history K toy tr x /\ lstep K toy x (Some e) y /\ works_on (ev_call e) 0 /\ holder tr 0 = Some 0%nat /\ ev_proc e = 0%nat.
Proof.
  destruct (go_obs K toy lim [PA (AStart (JStore hello)); PRun 0 is_link] at_link) as (x & R & O & _); [vm_cast_no_check (eq_refl true)|].
  destruct (reach_history _ _ _ R) as (tr & H). destruct x as [s ps]. unfold at_link in O. cbn [wo_procs] in O.
  destruct ps as [|[j [a|d|c k]] [|]]; try discriminate O; destruct c; try discriminate O; match goal with n : N |- _ => destruct n end; try discriminate O.
  set (e := mkEv 0 (CLink 0) (created (CLink 0) (snd (exec (CLink 0) s)))).
  pose proof (st_call K toy s [] [] j (CLink 0) k) as LS. cbn [app List.length] in LS. fold e in LS.
  exists tr, (mkWorld s [(j, Call (CLink 0) k)]), e. eexists. split; [exact H|]. split; [exact LS|]. split; [reflexivity|]. split; [|reflexivity].
  destruct (locks K toy K_ok toy_ok _ _ _ _ H LS) as (W & _). apply (W 0). reflexivity.
Qed.

Lemma stays_case : exists x y ps, reach K toy x /\ steps K toy x y /\
  stored_as K toy (wo_fs x) (str "resource") hello_dig (str "Hello, world") ps /\
  wo_procs y = [(JStore hello, Ret (Some hello_id)); (JStore other, Die DKill); (JStore one, Ret (Some one_id))].
Proof.
  destruct later_run as (x & y & R & S & EX & AP & _ & EY & _).
  assert (AD : forall j p, In (j, p) (wo_procs x) -> exists a, p = Ret a).
  { intros j p H. rewrite EX in H. destruct H as [H|[]]. injection H as _ <-. eauto. }
  assert (HI : In (JStore hello, Ret (Some hello_id)) (wo_procs x)) by (rewrite EX; left; reflexivity).
  destruct (stored_end K toy K_ok toy_ok x hello hello_id R AD AP HI) as (r' & id & id' & ps & _ & _ & _ & _ & HI' & _ & _ & ST & _).
  rewrite EX in HI'. destruct HI' as [HI'|[]]. assert (r' = hello) by congruence. subst r'.
  assert (EI : c_prefix K ++ id' = hello_id) by congruence. change hello_id with (c_prefix K ++ hello_dig) in EI. apply app_inv_head in EI. subst id'.
  exists x, y, ps. split; [auto|]. split; [auto|]. split; [exact ST|auto].
Qed.

(* the object of 11500 bytes is in segments *)
Definition big_dig : bytes := str "88a04440f82c4094b8de104d8d77a893".
Definition in_parts (x : world) : bool :=
  forallb (fun e => negb (bytes_eqb (e_key e) (pad 24 big_dig)) || (e_flags e =? 52)) (f_idx (wo_fs x)).
Lemma type_flag_small t : type_flag t <= 8.
Proof. unfold type_flag. destruct (bytes_eqb _ _); [lia|]. destruct (bytes_eqb _ _); [lia|]. destruct (bytes_eqb _ _); lia. Qed.
Lemma big_parts : exists x, reach K toy x /\ (wo_procs x = [(JStore big, Ret (Some big_id))] /\ apart K (wo_fs x)) /\
  exists p q rest, stored_as K toy (wo_fs x) (req_type big) big_dig (List.concat (r_data big)) (p :: q :: rest).
Proof.
  destruct (go_all (each [JStore big] 0) [inl (Some big_id)] (fun x => quiet 4 x && in_parts x)) as (x & R & E & O).
  - vm_cast_no_check (eq_refl true).
  - reflexivity.
  - rewrite andb_true_iff in O. destruct O as (O1 & O2). destruct (quiet_ok _ _ O1) as (AP & _). cbn [each jobs map combine ended app] in E.
    assert (AD : forall j p, In (j, p) (wo_procs x) -> exists a, p = Ret a).
    { intros j p H. rewrite E in H. destruct H as [H|[]]. injection H as _ <-. eauto. }
    assert (HI : In (JStore big, Ret (Some big_id)) (wo_procs x)) by (rewrite E; left; reflexivity).
    destruct (stored_end K toy K_ok toy_ok x big big_id R AD AP HI) as (r' & id & id' & ps & _ & _ & _ & _ & HI' & _ & _ & ST & _).
    rewrite E in HI'. destruct HI' as [HI'|[]]. assert (ER : big = r') by congruence. rewrite <- ER in ST.
    assert (EI : c_prefix K ++ id' = big_id) by congruence. change big_id with (c_prefix K ++ big_dig) in EI. apply app_inv_head in EI. rewrite EI in ST.
    exists x. split; [auto|]. split; [split; auto|]. destruct ps as [|p [|q rest]].
    + destruct ST as (_ & []).
    + exfalso. destruct ST as (_ & _ & IA & PI & HN & _). destruct IA as (I & (_ & _ & EK & (t & _ & F) & _) & _).
      unfold in_parts in O2. rewrite forallb_forall in O2. specialize (O2 _ I). unfold p_id in PI. rewrite EK, PI, bytes_eqb_refl in O2. cbn [negb orb] in O2.
      apply N.eqb_eq in O2. pose proof (type_flag_small t) as TS. destruct F as [(_ & F)|(k & _ & (f & If & Nf & _) & _)].
      * rewrite F in O2. rewrite O2 in TS. apply TS. reflexivity.
      * exact (HN f If Nf).
    + exists p, q, rest. exact ST.
Qed.
Lemma segments_case : exists x, reach K toy x /\ In (JStore big, Ret (Some big_id)) (wo_procs x) /\
  exists p q rest, stored_as K toy (wo_fs x) (req_type big) big_dig (List.concat (r_data big)) (p :: q :: rest).
Proof. destruct big_parts as (x & R & (E & _) & P). exists x. split; [auto|]. split; [rewrite E; left; reflexivity|auto]. Qed.

(** * Counterexamples *)

Lemma refuted_equal : exists C L x r b, conf_ok C /\ zlib_ok L /\ reach C L x /\ wo_procs x = [(JStore r, Ret (Some b))] /\
  snd (run (main_get C L false b) (wo_fs x)) = inl None.
Proof. destruct same_lost as (x & R & E & G). exists K, toy, x, same, same_id. split; [exact K_ok|]. split; [exact toy_ok|]. auto. Qed.

Lemma refuted_eight : exists C L x r1 r2 b1 b2, conf_ok C /\ zlib_ok L /\ reach C L x /\
  wo_procs x = [(JStore r1, Ret (Some b1)); (JStore r2, Ret (Some b2))] /\
  lower b1 <> lower b2 /\ snd (run (main_get C L false b2) (wo_fs x)) = inr DAbort.
Proof.
  destruct eight_lost as (x & R & E & G). exists K, toy, x, one8, two8, one8_id, two8_id. split; [exact K_ok|]. split; [exact toy_ok|].
  split; [auto|]. split; [auto|]. split; [|auto]. intros H. assert (X : bytes_eqb (lower one8_id) (lower two8_id) = true) by (rewrite H; apply bytes_eqb_refl). discriminate X.
Qed.

Lemma refuted_stuck : exists C L x r id, conf_ok C /\ zlib_ok L /\ reach C L x /\ wo_procs x = [(JStore r, Die DKill)] /\ req_id C (z_sha L) r id /\
  snd (run (main_store C L r) (wo_fs x)) = inr DAbort /\ snd (run (main_get C L false (c_prefix C ++ id)) (wo_fs x)) = inr DAbort.
Proof.
  destruct killed_stuck as (x & R & E & G1 & G2). exists K, toy, x, hello, hello_dig. split; [exact K_ok|]. split; [exact toy_ok|].
  split; [auto|]. split; [auto|]. split; [vm_compute; reflexivity|]. split; [auto|exact G2].
Qed.

Lemma refuted_lost : exists C L x r1 r2 b, conf_ok C /\ zlib_ok L /\ reach C L x /\
  wo_procs x = [(JStore r1, Die DKill); (JStore r2, Ret (Some b))] /\ List.concat (r_data r1) = List.concat (r_data r2) /\
  snd (run (main_get C L false b) (wo_fs x)) = inl None.
Proof.
  destruct killed_lost as (x & R & E & G). exists K, toy, x, five_once, five_twice, five_id. split; [exact K_ok|]. split; [exact toy_ok|].
  split; [auto|]. split; [auto|]. split; [|auto]. unfold five_once, five_twice, st. cbn [r_data List.concat]. rewrite !app_nil_r, firstn_skipn. reflexivity.
Qed.

Lemma refuted_padding : exists C L x r, conf_ok C /\ zlib_ok L /\ reach C L x /\ wo_procs x = [(JStore r, Die DAbort)] /\
  f_silo (wo_fs x) 0 <> None /\ f_silo (wo_fs x) 1 = None.
Proof. destruct zeros_abort as (x & R & E & F1 & F2). exists K39, toy_const, x, zeros. split; [exact K39_ok|]. split; [exact toy_const_ok|]. auto. Qed.

Lemma refuted_race : exists C L x r1 r2 b, conf_ok C /\ zlib_ok L /\ reach C L x /\
  wo_procs x = [(JStore r1, Die DAbort); (JStore r2, Ret (Some b))].
Proof. destruct race_store as (x & R & E). exists K, toy, x, hello, other, other_id. split; [exact K_ok|]. split; [exact toy_ok|]. auto. Qed.

Lemma refuted_race_get : exists C L x r b, conf_ok C /\ zlib_ok L /\ reach C L x /\
  wo_procs x = [(JStore r, Ret (Some b)); (JGet false b, Die DAbort)].
Proof. destruct race_get as (x & R & E). exists K, toy, x, hello, hello_id. split; [exact K_ok|]. split; [exact toy_ok|]. auto. Qed.

Lemma refuted_twice : exists C L x r b k, conf_ok C /\ zlib_ok L /\ reach C L x /\
  wo_procs x = [(JStore r, Ret (Some b)); (JStore r, Ret (Some b))] /\
  len (filter (fun e => bytes_eqb (e_key e) k) (f_idx (wo_fs x))) = 2.
Proof.
  destruct race_twice as (x & R & E & F). exists K, toy, x, hello, hello_id, (firstn 24 (str "39204683110a6ab20eef50ca542fd162")).
  split; [exact K_ok|]. split; [exact toy_ok|]. auto.
Qed.

Lemma refuted_forced : exists C L x r0 r1 r2 b0 b, conf_ok C /\ zlib_ok L /\ reach C L x /\
  wo_procs x = [(JStore r0, Ret (Some b0)); (JStore r1, Ret (Some b)); (JStore r2, Ret (Some b))] /\
  List.concat (r_data r1) <> List.concat (r_data r2) /\
  snd (run (main_get C L false b) (wo_fs x)) = inl (Some (List.concat (r_data r1))).
Proof.
  destruct forced_lost as (x & R & E & G). exists K, toy, x, hello, (forced "one"), (forced "two"), hello_id, forced_id.
  split; [exact K_ok|]. split; [exact toy_ok|]. split; [auto|]. split; [auto|]. split; [discriminate|exact G].
Qed.

Lemma refuted_form : exists C L x r0 r b0 i nid, conf_ok C /\ zlib_ok L /\ reach C L x /\
  wo_procs x = [(JStore r0, Ret (Some b0)); (JStore r, Die DAbort)] /\ r_ident r = Some i /\ good_id (c_prefix C) (c_idsize C) i nid.
Proof.
  destruct forced_abort as (x & R & E & V). exists K, toy, x, hello, forced_full, hello_id, forced_id, (str "0123456789abcdef0123456789abcdef").
  split; [exact K_ok|]. split; [exact toy_ok|]. split; [auto|]. split; [auto|]. split; [reflexivity|]. apply (valid_iff K K_ok). reflexivity.
Qed.

Lemma refuted_room : exists C L x r0 r1 r2 i0 i1 i2 b1 b2, conf_ok C /\ zlib_ok L /\ reach C L x /\
  wo_procs x = [(JStore r0, Ret (Some i0)); (JStore r1, Ret (Some i1)); (JStore r2, Ret (Some i2))] /\
  f_silo (wo_fs x) 1 = Some (b1, true) /\ f_silo (wo_fs x) 2 = Some (b2, true) /\ len b1 + len b2 < c_max C / 4.
Proof.
  destruct protected_alone as (x & b1 & b2 & R & E & F1 & L1 & F2 & L2).
  exists K, toy, x, hello, other, one, hello_id, other_id, one_id, b1, b2. split; [exact K_ok|]. split; [exact toy_ok|].
  split; [auto|]. split; [auto|]. split; [auto|]. split; [auto|]. change (c_max K / 4) with 3000. lia.
Qed.

Lemma pieces_case : exists x, reach K toy x /\
  wo_procs x = [(JStore five_once, Ret (Some five_id)); (JStore five_twice, Ret (Some five_id))] /\
  List.concat (r_data five_once) = List.concat (r_data five_twice) /\ r_data five_once <> r_data five_twice.
Proof.
  destruct (go_all (each [JStore five_once; JStore five_twice] 0) [inl (Some five_id); inl (Some five_id)] (fun _ => true)) as (x & R & E & _).
  - vm_cast_no_check (eq_refl true).
  - reflexivity.
  - exists x. split; [auto|]. split; [exact E|]. unfold five_once, five_twice, st. cbn [r_data List.concat]. generalize five. intros f. split.
    + rewrite !app_nil_r, firstn_skipn. reflexivity.
    + intros H. apply (f_equal (@List.length bytes)) in H. cbn [List.length] in H. discriminate H.
Qed.

(* where an object is split depends on the pieces it comes in *)
Lemma refuted_split : exists C L x1 x2 r1 r2 b, conf_ok C /\ zlib_ok L /\ reach C L x1 /\ reach C L x2 /\
  wo_procs x1 = [(JStore r1, Ret (Some b))] /\ wo_procs x2 = [(JStore r2, Ret (Some b))] /\
  List.concat (r_data r1) = List.concat (r_data r2) /\ f_silo (wo_fs x1) 0 <> f_silo (wo_fs x2) 0.
Proof.
  pose (lens := fun x => match f_silo (wo_fs x) 0 with Some (b, _) => len b | None => 0 end).
  destruct (go_all (each [JStore five_once] 0) [inl (Some five_id)] (fun x => lens x =? 11982)) as (x1 & R1 & E1 & O1); [vm_cast_no_check (eq_refl true)|reflexivity|].
  destruct (go_all (each [JStore five_twice] 0) [inl (Some five_id)] (fun x => negb (lens x =? 11982))) as (x2 & R2 & E2 & O2); [vm_cast_no_check (eq_refl true)|reflexivity|].
  exists K, toy, x1, x2, five_once, five_twice, five_id. split; [exact K_ok|]. split; [exact toy_ok|]. split; [auto|]. split; [auto|].
  split; [exact E1|]. split; [exact E2|]. split.
  - unfold five_once, five_twice, st. cbn [r_data List.concat]. generalize five. intros f. rewrite !app_nil_r, firstn_skipn. reflexivity.
  - intros H. unfold lens in *. rewrite H in O1. rewrite O1 in O2. discriminate O2.
Qed.
