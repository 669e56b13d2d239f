(* Proofs about the command lines of audit, reindex and rebuild. *)
From Coq Require Import String Permutation.
From Coq Require Import ZifyBool ZifyNat ZifyN.
From Verif Require Import Base BaseLemmas ListLemmas IndexModel IndexSpec HeaderModel HeaderSpec InflateSpec ProgModel StoreModel StoreSpec StoreSysModel StoreSys
  SiloNameModel SiloNameSpec SiloNameProofs ReindexModel ReindexSpec ReindexMain AuditModel AuditSpec AuditProofs AuditMain
  RebuildModel RebuildSpec RebuildTop CmdModel CmdSpec CmdMain OthModel OthSpec OthMain NamesMain AcmdModel AcmdSpec.
Open Scope string_scope.
Open Scope list_scope.
Open Scope N_scope.
Ltac Zify.zify_post_hook ::= Z.div_mod_to_equations.

(** * Iterating *)
Section Iter.
Context {A : Type}.
Variables (noent reg : bytes -> bool) (dirname : bytes) (b : basename) (k : N).
Notation name u := (Silo_Filename dirname b u false).
Hypothesis K32 : k < 2 ^ 32.
Hypothesis END : noent (Silo_Dirname dirname k) = true.
Hypothesis DIRS : forall u, u < k -> noent (Silo_Dirname dirname u) = false.
Variables (func : list A -> bytes -> N -> list A * Z) (g : N -> A).
Hypothesis CALL : forall u acc, u < k -> reg (name u) = true -> func acc (name u) u = (acc ++ [g u], 0%Z).

Lemma iter_from : forall fuel j acc, N.of_nat j <= k -> (N.to_nat k - j < fuel)%nat ->
  silo_iter_loop noent reg func fuel dirname b (N.of_nat j) acc =
  Ok (acc ++ map g (filter (fun u => reg (name u)) (map N.of_nat (seq j (N.to_nat k - j)))), 0%Z).
Proof.
  induction fuel as [|fuel IH]; intros j acc Hj Hf; [lia|]. cbn [silo_iter_loop]. destruct (N.eq_dec (N.of_nat j) k) as [E|NE].
  - rewrite E, END. replace (N.to_nat k - j)%nat with 0%nat by lia. cbn. rewrite app_nil_r. auto.
  - rewrite DIRS by lia. replace (N.to_nat k - j)%nat with (S (N.to_nat k - S j))%nat by lia. cbn [seq map filter].
    assert (HS : (N.of_nat j + 1) mod 2 ^ 32 = N.of_nat (S j)) by (rewrite N.mod_small; lia).
    destruct (reg (name (N.of_nat j))) eqn:R.
    + rewrite CALL by (auto; lia). change ((0 =? 0)%Z) with true. cbn iota. rewrite HS, IH by lia. cbn [map]. rewrite <- app_assoc. reflexivity.
    + change ((0 =? 0)%Z) with true. cbn iota. rewrite HS, IH by lia. auto.
Qed.
Lemma iter_called fuel : (N.to_nat k < fuel)%nat ->
  Silo_Iter noent reg func fuel dirname b [] = Ok (map g (filter (fun u => reg (name u)) (SiloNameSpec.upto k)), 0%Z).
Proof. intros H. unfold Silo_Iter. change 0 with (N.of_nat 0) at 1. rewrite iter_from by lia. rewrite Nat.sub_0_r. reflexivity. Qed.
End Iter.

Section Acmd.
Variable C : conf.
Variable L : zlib.
Variable dirname : bytes.
Variable b : basename.
Notation name u := (Silo_Filename dirname b u false).

(** * audit *)
Lemma audit_getopt os ops args : written [o_i] [o_h] os ops args <-> getopt "i:h" args = (map ev os, ops).
Proof.
  assert (TV : forall c, takes (str "i:h") c = Some true <-> In c [o_i]) by takes_tac ([105;58;104]).
  assert (TF : forall c, takes (str "i:h") c = Some false <-> In c [o_h]) by takes_tac ([105;58;104]).
  split; intros H.
  - eapply loop_written; eauto; try (cbn; unfold o_h, o_i; lia).
  - eapply loop_inv; eauto; try (cbn; unfold o_h, o_i; lia).
Qed.
Definition ignores (os : list (N * option bytes)) : bool := existsb (bytes_eqb ignore_word) (CmdSpec.given o_i os).
Lemma audit_opts_spec : forall os ign, Forall (fun o => match snd o with Some _ => In (fst o) [o_i] | None => In (fst o) [o_h] end) os ->
  ~ In (o_h, None) os -> audit_opts ign (map ev os) = Some (ign || ignores os).
Proof.
  induction os as [|[c v] os IH]; intros ign WF NH; [cbn; rewrite orb_false_r; auto|]. inversion_clear WF as [|? ? W WF']. cbn [fst snd] in W.
  destruct v as [v|]; [|destruct W as [<-|[]]; exfalso; apply NH; left; auto]. destruct W as [<-|[]].
  cbn [map]. unfold ev at 1. cbn [fst snd]. unfold o_i at 1. cbn [audit_opts]. unfold ignores, CmdSpec.given. cbn [flat_map].
  change (o_i =? o_i) with true. cbn iota. cbn [app existsb]. fold (CmdSpec.given o_i os). fold (ignores os).
  assert (NH' : ~ In (o_h, None) os) by (cbn in NH; tauto). unfold ignore_word.
  destruct (bytes_eqb v (str "ignore-metadata-record-id")) eqn:E.
  - apply bytes_eqb_true in E. subst v. rewrite bytes_eqb_refl, IH by auto. cbn. destruct ign; auto.
  - replace (bytes_eqb (str "ignore-metadata-record-id") v) with false; [rewrite IH by auto; auto|].
    symmetry. apply not_true_is_false. intros X. apply bytes_eqb_true in X. subst v. rewrite bytes_eqb_refl in E. discriminate.
Qed.
Lemma audit_opts_ev : forall l ign x, audit_opts ign l = Some x -> exists os, l = map ev os /\ ~ In (o_h, None) os.
Proof.
  induction l as [|e l IH]; intros ign x H; [exists []; auto|]. destruct e as [c v|]; [|discriminate].
  destruct (N.eq_dec c o_h) as [->|NE]; [destruct v; discriminate|].
  assert (exists os, l = map ev os /\ ~ In (o_h, None) os) as (os & -> & NH).
  { cbn [audit_opts] in H. repeat match type of H with context [match ?a with _ => _ end] => destruct a; try discriminate end; eauto. }
  exists ((c, v) :: os). split; [auto|]. intros [E|E]; [injection E as -> _; auto|auto].
Qed.
Lemma audit_refused fuel D args : (forall os ops, written [o_i] [o_h] os ops args -> In (o_h, None) os) -> audit_cmd C L dirname b fuel D args = Ok None.
Proof.
  intros H. unfold audit_cmd. destruct (getopt "i:h" args) as [evs ops] eqn:G. destruct (audit_opts false evs) as [ign|] eqn:A; [|auto]. exfalso.
  destruct (audit_opts_ev _ _ _ A) as (os & -> & NH). apply NH, (H os ops), audit_getopt. auto.
Qed.
Lemma ignores_in os : ignores os = true <-> In ignore_word (CmdSpec.given o_i os).
Proof.
  unfold ignores. rewrite existsb_exists. split; [intros (v & I & E); apply bytes_eqb_true in E; subst; auto|intros I; exists ignore_word; split; auto; apply bytes_eqb_refl].
Qed.
Lemma audit_ops fuel D os ops args : written [o_i] [o_h] os ops args -> ~ In (o_h, None) os ->
  audit_cmd C L dirname b fuel D args =
  let* out := match ops with
              | [] => let* files := opened_disk dirname b fuel D 0 in main_audit C L (ignores os) fuel files
              | _ => audit_named C L (ignores os) fuel (map (d_file D) ops)
              end in Ok (Some (out, 0)).
Proof.
  intros W NH. pose proof (written_wf _ _ _ _ _ W) as WF. apply audit_getopt in W. unfold audit_cmd. rewrite W, audit_opts_spec by auto. auto.
Qed.
Lemma opened_all D : forall ops fs, Forall2 (fun fn f => d_file D fn = Some f) ops fs -> opened_named (map (d_file D) ops) = map (fun f => ((-1)%Z, f)) fs.
Proof. induction 1 as [|fn f ops fs E F IH]; [auto|]. cbn [map opened_named]. rewrite E, IH. auto. Qed.
Theorem audit_files fuel D os ops args fs out st : written [o_i] [o_h] os ops args -> ~ In (o_h, None) os -> ops <> [] ->
  Forall2 (fun fn f => d_file D fn = Some f /\ is_bytes f) ops fs -> audit_cmd C L dirname b fuel D args = Ok (Some (out, st)) ->
  exists ign vs groups rest plain tl, (ign = true <-> In ignore_word (CmdSpec.given o_i os)) /\
  out = flat_map v_out vs ++ flat_map snd groups ++ tl /\
  map v_file vs = fs /\ Forall (told_silo C L ign) vs /\
  parted (map snd (flat_map v_recs vs)) (flat_map fst groups ++ rest) plain /\
  Forall (fun g => told C L (fst g) (snd g)) groups /\ (rest = [] -> tl = []) /\ (rest <> [] -> exists x, In x tl /\ complaint x).
Proof.
  intros W NH NE F H. rewrite (audit_ops fuel D os ops args W NH) in H. destruct ops as [|o ops]; [destruct (NE eq_refl)|].
  unfold audit_named in H. rewrite (opened_all D (o :: ops) fs) in H by (clear - F; induction F as [|x y l l' (P & _)]; constructor; auto).
  destruct (main_audit C L (ignores os) fuel (map (fun f => ((-1)%Z, f)) fs)) as [out'| | |] eqn:M; try discriminate H. injection H as <- <-.
  assert (B : Forall (fun f => is_bytes (snd f)) (map (fun f => ((-1)%Z, f)) fs)).
  { clear - F. induction F as [|x y l l' (_ & P)]; constructor; auto. }
  destruct (report_found C L (ignores os) fuel _ out' B M) as (vs & groups & rest & plain & tl & E1 & E2 & R).
  exists (ignores os), vs, groups, rest, plain, tl. split; [apply ignores_in|]. split; [exact E1|]. split; [|exact R].
  assert (X : map snd (map (fun v => (v_no v, v_file v)) vs) = map snd (map (fun f => ((-1)%Z, f)) fs)) by (f_equal; exact E2).
  rewrite !map_map in X. cbn [snd] in X. rewrite map_id in X. exact X.
Qed.
Lemma opened_same s D k : on_disk dirname b s D k -> forall fuel i, opened_disk dirname b fuel D i = AuditModel.opened fuel s i.
Proof.
  intros O. induction fuel as [|fuel IH]; intros i; [auto|]. cbn [opened_disk AuditModel.opened]. rewrite (od_file _ _ _ _ _ O). destruct (f_silo s i) as [(f, w)|]; cbn [option_map fst]; [rewrite IH|]; auto.
Qed.
Lemma audit_whole fuel D s k os args : on_disk dirname b s D k -> written [o_i] [o_h] os [] args -> ~ In (o_h, None) os ->
  audit_cmd C L dirname b fuel D args = let* out := audit_archive C L (ignores os) fuel s in Ok (Some (out, 0)).
Proof. intros O W NH. rewrite (audit_ops fuel D os [] args W NH). unfold audit_archive. rewrite (opened_same s D k O). auto. Qed.
Theorem audit_line : conf_ok C -> zlib_ok L -> forall x D k k' os args ign, reach C L x ->
  (forall j p, In (j, p) (wo_procs x) -> exists a, p = Ret a) ->
  on_disk dirname b (wo_fs x) D k -> written [o_i] [o_h] os [] args -> ~ In (o_h, None) os -> (ign = true <-> In ignore_word (CmdSpec.given o_i os)) ->
  once C L (wo_fs x) -> in_order C L (wo_fs x) -> gapless (wo_fs x) k' -> meta_named C L ign (wo_fs x) ->
  N.of_nat (List.length (f_idx (wo_fs x))) < 2 ^ 31 - 2 ->
  exists ids, NoDup ids /\ (forall id, In id ids <-> exists n o w e, in_archive C L (wo_fs x) n o w e /\ segment_of C w id 1) /\
  exists m, forall fuel, (m <= fuel)%nat -> audit_cmd C L dirname b fuel D args =
    Ok (Some (flat_map (fun n => [LSilo (Z.of_N n); LTotal (len (entries (wo_fs x) n)) 0]) (AuditSpec.upto k') ++ map LObject ids, 0)).
Proof.
  intros CO ZO x D k k' os args ign R HR O W NH IG H1 H2 H3 H4 H5. assert (E : ignores os = ign).
  { destruct ign, (ignores os) eqn:X; auto; [|apply ignores_in in X; apply IG in X; discriminate X].
    destruct IG as [IG _]. apply ignores_in in IG; auto. congruence. }
  destruct (audit_ended C L ign CO ZO x k' R HR H1 H2 H3 H4 H5) as (ids & ND & ID & m & A). exists ids. split; [exact ND|]. split; [exact ID|]. exists m. intros fuel Hf.
  rewrite (audit_whole fuel D _ k os args O W NH), E, A by auto. auto.
Qed.
Lemma audit_always fuel D args out st : audit_cmd C L dirname b fuel D args = Ok (Some (out, st)) -> st = 0.
Proof.
  unfold audit_cmd. destruct (getopt "i:h" args) as [evs ops]. destruct (audit_opts false evs) as [ign|]; [|discriminate].
  match goal with |- context [bind ?a _] => destruct a; try discriminate end. intros H. cbn in H. injection H. auto.
Qed.
Lemma audit_stops fuel D os ops1 fn ops2 args args1 : written [o_i] [o_h] os (ops1 ++ fn :: ops2) args -> written [o_i] [o_h] os ops1 args1 ->
  ~ In (o_h, None) os -> ops1 <> [] -> d_file D fn = None -> audit_cmd C L dirname b fuel D args = audit_cmd C L dirname b fuel D args1.
Proof.
  intros W W1 NH NE M. rewrite (audit_ops fuel D os _ _ W NH), (audit_ops fuel D os _ _ W1 NH). destruct ops1 as [|o ops1]; [destruct (NE eq_refl)|].
  cbn [app]. unfold audit_named. enough (X : forall l, opened_named (map (d_file D) (l ++ fn :: ops2)) = opened_named (map (d_file D) l)).
  { change (map (d_file D) (o :: ops1 ++ fn :: ops2)) with (map (d_file D) ((o :: ops1) ++ fn :: ops2)). rewrite X. auto. }
  induction l as [|a l IH]; cbn [app map opened_named]; [rewrite M; auto|]. destruct (d_file D a); [rewrite IH|]; auto.
Qed.
Lemma audit_nothing fuel D os fn ops args : written [o_i] [o_h] os (fn :: ops) args -> ~ In (o_h, None) os -> d_file D fn = None ->
  audit_cmd C L dirname b (S fuel) D args = Ok (Some ([], 0)).
Proof. intros W NH M. rewrite (audit_ops (S fuel) D os _ _ W NH). cbn [map]. unfold audit_named. rewrite M. cbn. auto. Qed.

(** * reindex *)
Definition contents (s : fs) (n : N) : bytes := match f_silo s n with Some (f, _) => f | None => [] end.
Lemma reindex_visits s D k fuel : on_disk dirname b s D k -> (N.to_nat k < fuel)%nat ->
  exists silos, Silo_Iter (d_noent D) (d_reg D) (reindex_open D) fuel dirname b [] = Ok (silos, 0%Z) /\ silos_of s silos.
Proof.
  intros [O1 O2 O3 O4 O5 O6] Hf. eexists. split.
  - apply (iter_called _ _ dirname b k O1 O2 O3 (reindex_open D) (fun u => (u, contents s u))); auto. intros u acc Hu R. unfold reindex_open. rewrite O5.
    apply O4 in R; auto. unfold contents. destruct (f_silo s u) as [(f, w)|]; [auto|destruct (R eq_refl)].
  - split.
    + rewrite map_map. cbn [fst]. rewrite map_id. apply NoDup_filter, upto_nodup.
    + intros n f. rewrite in_map_iff. split.
      * intros (u & E & I). injection E as <- <-. apply filter_In in I. destruct I as [I R]. apply upto_in in I. apply O4 in R; auto. unfold contents.
        destruct (f_silo s u) as [(f', w)|]; [eauto|destruct (R eq_refl)].
      * intros (w & E). exists n. unfold contents. rewrite E. split; [auto|]. apply filter_In. assert (S : f_silo s n <> None) by congruence.
        split; [apply upto_in; auto|apply O4; auto].
Qed.
Theorem reindex_line : conf_ok C -> zlib_ok L -> forall x D k es sort_size ops0 args,
  reach C L x -> (forall j p, In (j, p) (wo_procs x) -> exists a, p = Ret a) ->
  on_disk dirname b (wo_fs x) D k -> written [] [o_h] [] [] args ->
  once C L (wo_fs x) -> ok_conf (c_idsize C) sort_size -> Forall ok_op ops0 -> incl (ideal_ops ops0) (f_idx (wo_fs x)) ->
  N.of_nat (List.length (f_idx (wo_fs x))) + len (ideal_ops ops0) < 2 ^ 38 ->
  exists ops, (forall fuel, (N.to_nat k < fuel)%nat -> reindex_cmd C dirname b fuel D es args = Ok (Some (ops, [], 0))) /\
    exists st es', run_ops (c_idsize C) sort_size ifs_empty (ops0 ++ ops) = Ok st /\
      IndexModel.lookup st None = Ok es' /\ (forall e, In e es' <-> In e (f_idx (wo_fs x))).
Proof.
  intros CO ZO x D k es sort_size ops0 args R HR O W ON OC F0 I0 B. apply hk_getopt in W.
  destruct (reindex_visits _ _ _ (S (N.to_nat k)) O ltac:(lia)) as (silos & _ & S).
  assert (V : exists l, silos_of (wo_fs x) l /\ forall fuel, (N.to_nat k < fuel)%nat -> Silo_Iter (d_noent D) (d_reg D) (reindex_open D) fuel dirname b [] = Ok (l, 0%Z)).
  { destruct (reindex_visits _ _ _ (Datatypes.S (N.to_nat k)) O ltac:(lia)) as (l & E & SO). exists l. split; [exact SO|]. intros fuel Hf.
    destruct O as [O1 O2 O3 O4 O5 O6]. assert (CALL : forall u acc, u < k -> d_reg D (name u) = true -> reindex_open D acc (name u) u = (acc ++ [(u, contents (wo_fs x) u)], 0%Z)).
    { intros u acc Hu RG. unfold reindex_open. rewrite O5. apply O4 in RG; auto. unfold contents. destruct (f_silo (wo_fs x) u) as [(f, w)|]; [auto|destruct (RG eq_refl)]. }
    rewrite (iter_called _ _ dirname b k O1 O2 O3 (reindex_open D) (fun u => (u, contents (wo_fs x) u)) CALL _ Hf).
    rewrite (iter_called _ _ dirname b k O1 O2 O3 (reindex_open D) (fun u => (u, contents (wo_fs x) u)) CALL _ (Nat.lt_succ_diag_r _)) in E. exact E. }
  clear silos S. destruct V as (l & SO & V).
  destruct (reindex_ended C L CO ZO x l es sort_size ops0 R HR ON SO OC F0 I0 B) as (ops & M & _ & T). exists ops. split; [|exact T].
  intros fuel Hf. unfold reindex_cmd. rewrite W. cbn [map]. rewrite V by auto. cbn. rewrite M. auto.
Qed.
Lemma reindex_refused fuel D es args : (forall ops, ~ written [] [o_h] [] ops args) -> reindex_cmd C dirname b fuel D es args = Ok None.
Proof.
  intros H. unfold reindex_cmd. destruct (getopt "h" args) as [[|e evs] ops] eqn:G; [|auto]. exfalso. apply (H ops), hk_getopt. auto.
Qed.
Theorem reindex_files fuel D es ops args silos : written [] [o_h] [] ops args -> ops <> [] ->
  Forall2 (fun f x => named_after (fst f) (fst x) /\ fst x < 2 ^ 64 /\ snd f = snd x)
    (flat_map (fun fn => match d_file D fn with Some f => [(fn, f)] | None => [] end) ops) silos ->
  forall o rest, main_reindex C es silos = Ok (o, rest) ->
  exists st, reindex_cmd C dirname b fuel D es args = Ok (Some (o, rest, st)) /\ (st = 0 <-> forall fn, In fn ops -> d_file D fn <> None).
Proof.
  intros W NE F o rest M. apply hk_getopt in W. unfold reindex_cmd. rewrite W. cbn [map]. destruct ops as [|a ops]; [destruct (NE eq_refl)|].
  rewrite (reindex_named C es _ _ F), M. cbn iota beta. eexists. split; [reflexivity|].
  destruct (forallb _ (a :: ops)) eqn:FB.
  - split; [intros _ fn I E|auto]. rewrite forallb_forall in FB. specialize (FB fn I). cbn beta in FB. rewrite E in FB. discriminate.
  - split; [discriminate|]. intros A. exfalso. assert (T : forallb (fun fn => match d_file D fn with Some _ => true | None => false end) (a :: ops) = true).
    { apply forallb_forall. intros fn I. specialize (A fn I). destruct (d_file D fn); [auto|destruct (A eq_refl)]. }
    rewrite T in FB. discriminate.
Qed.
Lemma reindex_silent fuel D es args : written [] [o_h] [] [] args ->
  d_noent D (Silo_Dirname dirname 0) = false -> d_reg D (name 0) = true -> d_file D (name 0) = None ->
  reindex_cmd C dirname b (S fuel) D es args = Ok (Some ([], [], 0)).
Proof.
  intros W H1 H2 H3. apply hk_getopt in W. unfold reindex_cmd. rewrite W. cbn [map]. unfold Silo_Iter. cbn [silo_iter_loop]. rewrite H1, H2. unfold reindex_open. rewrite H3. cbn. auto.
Qed.

(** * rebuild *)
Section Rebuild.
Variable bufsiz : N.
Variable spare : bool.
Variable split : bytes -> list bytes.
Notation seq_of := (rebuild_seq C L bufsiz spare split).
Notation new fn := (fn ++ str "_").

Lemma rebuild_apart (D0 : disk) (all : list bytes) : apart all -> forall names D rb outs, incl names all ->
  (forall fn, In fn all -> d_file D fn = d_file D0 fn) ->
  rebuild_files C L bufsiz spare split rb (map (d_file D0) names) = Ok outs ->
  exists D', seq_of D rb names = Ok D' /\
    (forall p, (forall fn, In fn names -> d_file D0 fn <> None -> p <> new fn) -> d_file D' p = d_file D p) /\
    (forall fn f, In fn names -> d_file D0 fn = Some f -> exists o, In (Some f, Some o) (combine (map (d_file D0) names) outs) /\ d_file D' (new fn) = Some o).
Proof.
  intros AP. induction names as [|a names IH]; intros D rb outs I S H.
  - exists D. cbn. split; [auto|]. split; [auto|]. intros fn f [].
  - cbn [map rebuild_files] in H. cbn [rebuild_seq]. rewrite (S a) by (apply I; left; auto).
    assert (I' : incl names all) by (intros z Z; apply I; right; auto).
    destruct (d_file D0 a) as [f|] eqn:E.
    + destruct (rebuild_silo C L bufsiz spare split rb f) as [rb'| | |] eqn:RB; try discriminate H. cbn [bind] in H |- *.
      destruct (rebuild_files C L bufsiz spare split rb' (map (d_file D0) names)) as [l| | |] eqn:RF; try discriminate H. cbn [bind] in H. injection H as <-.
      destruct (IH (d_write D (new a) (b_out L rb')) rb' l I') as (D' & S1 & S2 & S3); auto.
      { intros fn F. cbn [d_write d_file]. destruct (bytes_eqb fn (new a)) eqn:X; [|auto]. apply bytes_eqb_true in X. exfalso.
        apply (AP a fn); auto. apply I. left; auto. }
      exists D'. split; [exact S1|]. split.
      * intros p P. rewrite S2 by (intros fn F; apply P; right; auto). cbn [d_write d_file]. destruct (bytes_eqb p (new a)) eqn:X; [|auto]. apply bytes_eqb_true in X.
        exfalso. apply (P a); auto; [left; auto|congruence].
      * intros fn f' F E'. assert (DEC : In fn names \/ ~ In fn names) by (destruct (in_dec (list_eq_dec N.eq_dec) fn names); auto).
        destruct DEC as [F'|F'].
        -- destruct (S3 fn f' F' E') as (o & IN & EQ). exists o. split; [right; exact IN|exact EQ].
        -- destruct F as [->|F]; [|destruct (F' F)]. rewrite E in E'. injection E' as ->. exists (b_out L rb'). split.
           ++ cbn [map combine]. rewrite E. left. auto.
           ++ rewrite S2.
              ** cbn [d_write d_file]. rewrite bytes_eqb_refl. auto.
              ** intros fn' F1 _ X. apply app_inv_tail in X. subst fn'. auto.
    + destruct (rebuild_files C L bufsiz spare split rb (map (d_file D0) names)) as [l| | |] eqn:RF; try discriminate H. cbn [bind] in H. injection H as <-.
      destruct (IH D rb l I') as (D' & S1 & S2 & S3); auto. exists D'. split; [exact S1|]. split.
      * intros p P. apply S2. intros fn F. apply P. right; auto.
      * intros fn f F E'. destruct F as [->|F]; [congruence|]. destruct (S3 fn f F E') as (o & IN & EQ). exists o. split; [right; exact IN|exact EQ].
Qed.

Hypothesis CP : clean_prefix (c_prefix C).
Hypothesis BP : is_bytes (c_prefix C).
Hypothesis IS : 16 <= c_idsize C <= 64.
Hypothesis ZO : zlib_ok L.
Hypothesis ZR : zlib_roomy L.
Hypothesis BS : bufsiz <= 65536.
Hypothesis DS : RebuildSpec.delivers split.

Lemma rebuild_named names D : apart names -> Forall (fun fn => good_file (c_prefix C) bufsiz spare (d_file D fn)) names ->
  exists D', seq_of D (rb_new L) names = Ok D' /\
    (forall p, (forall fn, In fn names -> d_file D fn <> None -> p <> new fn) -> d_file D' p = d_file D p) /\
    (forall fn f, In fn names -> d_file D fn = Some f -> exists o, d_file D' (new fn) = Some o /\
       renewed (c_prefix C) bufsiz spare (c_idsize C) (z_sha L) (Some f) (Some o)).
Proof.
  intros AP G. assert (G' : Forall (good_file (c_prefix C) bufsiz spare) (map (d_file D) names)) by (apply Forall_map; exact G).
  destruct (rebuild_ok C L bufsiz CP BP IS ZO ZR BS spare split DS _ G') as (outs & M & F2).
  destruct (rebuild_apart D names AP names D (rb_new L) outs (incl_refl _) ltac:(auto) M) as (D' & S1 & S2 & S3).
  exists D'. split; [exact S1|]. split; [exact S2|]. intros fn f F E. destruct (S3 fn f F E) as (o & IN & EQ). exists o. split; [exact EQ|].
  clear - F2 IN. induction F2 as [|x y l l' P F IH]; [destruct IN|]. destruct IN as [X|X]; [injection X as -> ->; exact P|auto].
Qed.
Theorem rebuild_line fuel D ops args : written [] [o_h] [] ops args -> ops <> [] -> apart ops ->
  Forall (fun fn => good_file (c_prefix C) bufsiz spare (d_file D fn)) ops ->
  exists D', rebuild_cmd C L dirname b bufsiz spare split fuel D args = Ok (Some (D', 0)) /\
    (forall p, (forall fn, In fn ops -> d_file D fn <> None -> p <> new fn) -> d_file D' p = d_file D p) /\
    (forall fn f, In fn ops -> d_file D fn = Some f -> exists o, d_file D' (new fn) = Some o /\
       renewed (c_prefix C) bufsiz spare (c_idsize C) (z_sha L) (Some f) (Some o)).
Proof.
  intros W NE AP G. apply hk_getopt in W. destruct (rebuild_named ops D AP G) as (D' & S1 & S2). exists D'. split; [|exact S2].
  unfold rebuild_cmd. rewrite W. cbn [map]. destruct ops as [|a ops]; [destruct (NE eq_refl)|]. cbn [bind]. rewrite S1. auto.
Qed.
Theorem rebuild_all fuel s D k args : written [] [o_h] [] [] args -> on_disk dirname b s D k -> (N.to_nat k < fuel)%nat -> ok_base b ->
  (forall n f w, f_silo s n = Some (f, w) -> good_file (c_prefix C) bufsiz spare (Some f)) ->
  exists D', rebuild_cmd C L dirname b bufsiz spare split fuel D args = Ok (Some (D', 0)) /\
    (forall p, (forall n, f_silo s n <> None -> p <> new (name n)) -> d_file D' p = d_file D p) /\
    (forall n f w, f_silo s n = Some (f, w) -> exists o, d_file D' (new (name n)) = Some o /\
       renewed (c_prefix C) bufsiz spare (c_idsize C) (z_sha L) (Some f) (Some o)).
Proof.
  intros W O Hf LP G. apply hk_getopt in W. destruct O as [O1 O2 O3 O4 O5 O6].
  set (names := map (fun u => name u) (filter (fun u => d_reg D (name u)) (SiloNameSpec.upto k))).
  assert (IN : forall fn, In fn names <-> exists n, fn = name n /\ f_silo s n <> None).
  { intros fn. unfold names. rewrite in_map_iff. split.
    - intros (u & <- & I). apply filter_In in I. destruct I as [I R]. apply upto_in in I. exists u. split; [auto|]. apply O4; auto.
    - intros (n & -> & S). exists n. split; [auto|]. apply filter_In. split; [apply upto_in; auto|apply O4; auto]. }
  assert (AP : apart names).
  { intros fn fn' I' I X. apply IN in I. destruct I as (n & -> & _). apply IN in I'. destruct I' as (m & -> & _). apply (rebuilt_apart dirname b m n LP X). }
  assert (GF : Forall (fun fn => good_file (c_prefix C) bufsiz spare (d_file D fn)) names).
  { apply Forall_forall. intros fn I. apply IN in I. destruct I as (n & -> & S). rewrite O5. destruct (f_silo s n) as [(f, w)|] eqn:E; [|destruct (S eq_refl)]. apply (G n f w E). }
  destruct (rebuild_named names D AP GF) as (D' & S1 & S2 & S3). exists D'. split.
  - unfold rebuild_cmd. rewrite W. cbn [map]. rewrite (iter_called _ _ dirname b k O1 O2 O3 (fun acc p _ => (acc ++ [p], 0%Z)) (fun u => name u)) by auto.
    cbn [bind]. fold names. rewrite S1. auto.
  - split.
    + intros p P. apply S2. intros fn I _. apply IN in I. destruct I as (n & -> & S). apply P. exact S.
    + intros n f w E. apply S3; [apply IN; exists n; split; [auto|congruence]|]. rewrite O5, E. auto.
Qed.
End Rebuild.
Lemma rebuild_refused bufsiz spare split fuel D args : (forall ops, ~ written [] [o_h] [] ops args) -> rebuild_cmd C L dirname b bufsiz spare split fuel D args = Ok None.
Proof.
  intros H. unfold rebuild_cmd. destruct (getopt "h" args) as [[|e evs] ops] eqn:G; [|auto]. exfalso. apply (H ops), hk_getopt. auto.
Qed.
Lemma rebuild_missing bufsiz spare split fuel D fn args : written [] [o_h] [] [fn] args -> d_file D fn = None ->
  rebuild_cmd C L dirname b bufsiz spare split fuel D args = Ok (Some (D, 0)).
Proof. intros W M. apply hk_getopt in W. unfold rebuild_cmd. rewrite W. cbn [map bind rebuild_seq]. rewrite M. auto. Qed.
End Acmd.
