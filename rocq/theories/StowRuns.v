(* Runs of stow and stevedore *)
From Coq Require Import String.
From Coq Require Import ZifyBool ZifyNat ZifyN.
From Verif Require Import Base BaseLemmas ListLemmas StowModel StowSpec.
Open Scope list_scope.
Open Scope N_scope.

Section Run.
Variables (idsize : N) (prefix : bytes) (sha : bytes -> bytes) (meta_text : list (bytes * bytes) -> list bytes) (tree : subj).
Notation step := (step idsize prefix sha meta_text tree).
Notation reach := (reach idsize prefix sha meta_text tree).

Definition mem (p : bytes) (l : list bytes) : bool := existsb (bytes_eqb p) l.
Lemma mem_in p l : mem p l = true <-> In p l.
Proof.
  unfold mem. rewrite existsb_exists. split.
  - intros (x & I & E). apply bytes_eqb_true in E. congruence.
  - intros I. exists p. split; auto. apply bytes_eqb_refl.
Qed.

Definition allowedb (l : label) (w : world) : bool :=
  match l with
  | LLook th =>
      match s_job (w_s w) with
      | Some j => forallb (fun d => implb (th (cut idsize d)) (mem (cut idsize d) (s_arch (w_s w))) && implb (mem (cut idsize d) (f_arch j)) (th (cut idsize d))) (f_ids j)
      | None => true
      end
  | _ => true
  end.
Lemma allowedb_ok l w : allowedb l w = true -> allowed idsize l w.
Proof.
  destruct l; cbn; auto. intros H j EJ d ID. rewrite EJ in H. rewrite forallb_forall in H. apply H in ID. apply andb_prop in ID. destruct ID as [H1 H2]. split.
  - intros T. rewrite T in H1. apply mem_in. auto.
  - intros I. apply mem_in in I. rewrite I in H2. auto.
Qed.

Definition newb (l : label) : bool := match l with LLook th => negb (th (key idsize tree)) | _ => true end.

Fixpoint run (ls : list label) (w : world) : option world :=
  match ls with
  | [] => Some w
  | l :: r => if allowedb l w then match step l w with Some (Ok w') => run r w' | _ => None end else None
  end.
Lemma run_reach reads arch (ok : label -> Prop) ls : forall w w', Forall ok ls -> reach ok reads arch w -> run ls w = Some w' -> reach ok reads arch w'.
Proof.
  induction ls as [|l ls IH]; intros w w' F R E; cbn [run] in E.
  - injection E as <-. auto.
  - destruct (allowedb l w) eqn:AB; [|discriminate]. destruct (step l w) as [[w1| | |]|] eqn:ES; try discriminate. inversion F; subst.
    apply (IH w1 w'); auto. eapply reach_step; eauto. apply allowedb_ok. auto.
Qed.
Lemma newb_ok ls : forallb newb ls = true -> Forall (tree_new idsize tree) ls.
Proof.
  intros H. apply Forall_forall. intros l I. rewrite forallb_forall in H. apply H in I. destruct l; cbn in *; auto. destruct (there _); [discriminate|auto].
Qed.
End Run.

(* an archive to try it on *)
Definition sha0 (d : bytes) : bytes := firstn 64 (map (fun b => if b =? 47 then 48 else b) d ++ repeat 48 64).
Definition meta0 (ch : list (bytes * bytes)) : list bytes := map (fun e => 44 :: fst e ++ snd e) ch.
Lemma plausible0 : plausible 16 sha0 (str "id:/") meta0.
Proof.
  constructor.
  - lia.
  - exists (str "id:"). auto.
  - intros d. unfold sha0. split.
    + unfold len. rewrite firstn_length, app_length, repeat_length. lia.
    + intros I. assert (I' : In 47 (map (fun b => if b =? 47 then 48 else b) d ++ repeat 48 64)).
      { rewrite <- (firstn_skipn 64). rewrite in_app_iff. auto. }
      rewrite in_app_iff in I'. destruct I' as [I'|I'].
      * apply in_map_iff in I'. destruct I' as (b & E & _). destruct (b =? 47) eqn:EB; lia.
      * apply repeat_spec in I'. lia.
  - intros c. unfold meta0. apply Forall_forall. intros b I. apply in_map_iff in I. destruct I as (e & <- & _). discriminate.
Qed.

(* three files: one in the archive; one not; one which has changed since *)
Definition file (now : bytes) (then_ : bytes) : subj := mkJ true (sha0 then_) [now].
Definition a0 := file (str "a") (str "a").
Definition b0 := file (str "b") (str "b").
Definition c0 := file (str "c, again") (str "c").
Definition tree0 : subj := mkJ false (sha0 (str "#mtree")) [str "#mtr"; str "ee"].

Definition step0 := step 16 (str "id:/") sha0 meta0 tree0.
(* the first of some labels that can happen *)
Fixpoint first_of (ls : list label) (w : world) : option (label * world) :=
  match ls with
  | [] => None
  | l :: r => match step0 l w with Some (Ok w') => Some (l, w') | _ => first_of r w end
  end.
Fixpoint play (n : nat) (pref : world -> list label) (w : world) : list label :=
  match n with
  | O => []
  | S n => match first_of (pref w) w with Some (l, w') => l :: play n pref w' | None => [] end
  end.
Definition round_now (w : world) : label :=
  LRound (c_en (w_c w) && c_up (w_c w)) (negb (is_nil (w_sc w))) (match c_tree (w_c w) with Some _ => true | None => false end).
Definition usual (th : bytes -> bool) (w : world) : list label := [LInput; LLook th; LLine; LEnd; LStore 0; LMeta; round_now w].
Definition good_run : list label := play 100 (usual (fun p => mem p [key 16 a0])) (start [[a0]; [b0; c0]] [key 16 a0]).

Definition last0 (reads : list (list subj)) (arch : list bytes) (ls : list label) : option world := run 16 (str "id:/") sha0 meta0 tree0 ls (start reads arch).
Definition c2 : subj := mkJ true (sha0 (str "coco")) [str "co"; str "co"].
Definition bad_a : list label := play 100 (usual (fun p => mem p [key 16 tree0])) (start [[b0; c2]] [key 16 tree0]).
Definition e0 : subj := mkJ true (sha0 (str "e")) [].
Definition bad_b : list label := play 100 (usual (fun p => false)) (start [[e0]] []).
Definition bad_c : list label := play 100 (fun w => [LInput; LLook (fun _ => false); LLine; LStore 0; LMeta; if c_up (w_c w) && match s_job (w_s w) with Some j => mem (j_dig tree0) (f_ids j) | None => true end then round_now w else LEnd]) (start [[b0]] []).

Notation reach0 := (reach 16 (str "id:/") sha0 meta0 tree0).
Definition any (l : label) : Prop := True.
Lemma any_all ls : Forall any ls.
Proof. apply Forall_forall. intros. exact I. Qed.
Lemma last0_reach reads arch (ok : label -> Prop) ls w : Forall ok ls -> last0 reads arch ls = Some w -> reach0 ok reads arch w.
Proof. intros F E. eapply run_reach; eauto. apply reach_start. Qed.

Lemma fine0 : Forall fine_file [a0; b0; c0; c2] /\ fine_tree sha0 tree0.
Proof.
  split.
  - repeat constructor; try (intros; discriminate).
  - repeat constructor; try (intros; discriminate).
Qed.

Definition seen (w : world) := (c_up (w_c w), transfers (w_hcs w), reported (w_hsc w), s_arch (w_s w), s_run (w_s w), s_store (w_s w)).
Lemma good_lemma : exists w, reach0 (tree_new 16 tree0) [[a0]; [b0; c0]] [key 16 a0] w /\ c_up (w_c w) = false /\
  transfers (w_hcs w) = ([str "b"; str "c, again"; str "#mtree"], []) /\ reported (w_hsc w) = [key 16 b0; key 16 c0; key 16 tree0] /\
  changes 16 sha0 [b0; c0; tree0] = [(j_dig c0, cut 16 (sha0 (str "c, again")))].
Proof.
  destruct (last0 [[a0]; [b0; c0]] [key 16 a0] good_run) as [w|] eqn:E; [|vm_compute in E; discriminate].
  assert (F : Forall (tree_new 16 tree0) good_run) by (apply newb_ok; vm_compute; reflexivity).
  assert (S : option_map seen (last0 [[a0]; [b0; c0]] [key 16 a0] good_run) = Some (false, ([str "b"; str "c, again"; str "#mtree"], []), [key 16 b0; key 16 c0; key 16 tree0],
    [key 16 a0; key 16 b0; cut 16 (sha0 (str "c, again")); key 16 tree0], [], None)) by (vm_compute; reflexivity).
  rewrite E in S. cbn [option_map] in S. unfold seen in S. injection S as S1 S2 S3 S4 S5 S6.
  exists w. split; [eapply last0_reach; eauto|]. auto.
Qed.

(* (a) The tree is in the archive already, two of its files are not *)
Lemma there_lemma : exists w, reach0 any [[b0; c2]] [key 16 tree0] w /\ c_up (w_c w) = false /\ w_sc w = [] /\ w_cs w = [] /\
  reported (w_hsc w) = [key 16 b0; key 16 c2] /\ metas (w_hcs w) <> [] /\
  transfers (w_hcs w) = ([content b0], content c2) /\ s_store (w_s w) <> None /\ ~ In (key 16 c2) (s_arch (w_s w)) /\
  (forall l w', not_other l -> step0 l w = Some (Ok w') -> l = LEof) /\
  (forall l w1 w', step0 LEof w = Some (Ok w1) -> not_other l -> step0 l w1 = Some (Ok w') -> False).
Proof.
  destruct (last0 [[b0; c2]] [key 16 tree0] bad_a) as [w|] eqn:E; [|vm_compute in E; discriminate].
  assert (R : reach0 any [[b0; c2]] [key 16 tree0] w) by (eapply last0_reach; [apply any_all|exact E]).
  vm_compute in E. injection E as <-. eexists. split; [exact R|]. clear R.
  split; [reflexivity|]. split; [reflexivity|]. split; [reflexivity|]. split; [vm_compute; reflexivity|]. split; [vm_compute; discriminate|].
  split; [vm_compute; reflexivity|]. split; [discriminate|]. split.
  { intros I. apply mem_in in I. vm_compute in I. discriminate. }
  split.
  - intros l w' N S. destruct l as [o i t| | | | | | [|[|n]] | | ]; cbn in S; try discriminate; auto.
    + destruct o, i, t; discriminate.
    + contradiction.
  - intros l w1 w' S1 N S. cbn in S1. injection S1 as <-. destruct l as [o i t| | | | | | [|[|n]] | | ]; cbn in S; try discriminate; auto.
    destruct o, i, t; discriminate.
Qed.

(* (b) A file has become empty *)
Lemma empty_lemma : exists w, reach0 (tree_new 16 tree0) [[e0]] [] w /\ c_up (w_c w) = true /\
  reported (w_hsc w) = [key 16 e0; key 16 tree0] /\ step0 LInput w = Some Abort.
Proof.
  destruct (last0 [[e0]] [] bad_b) as [w|] eqn:E; [|vm_compute in E; discriminate].
  assert (R : reach0 (tree_new 16 tree0) [[e0]] [] w) by (eapply last0_reach; [|exact E]; apply newb_ok; vm_compute; reflexivity).
  vm_compute in E. injection E as <-. eexists. split; [exact R|]. clear R. repeat split; vm_compute; reflexivity.
Qed.

(* (c) The end of the filter command is noticed when all is done *)
Lemma late_lemma : exists w, reach0 (tree_new 16 tree0) [[b0]] [] w /\ c_up (w_c w) = false /\
  transfers (w_hcs w) = ([content b0; content tree0], []) /\ w_sc w = [RFilter []] /\
  step0 (LRound false true false) w = Some Abort.
Proof.
  destruct (last0 [[b0]] [] bad_c) as [w|] eqn:E; [|vm_compute in E; discriminate].
  assert (R : reach0 (tree_new 16 tree0) [[b0]] [] w) by (eapply last0_reach; [|exact E]; apply newb_ok; vm_compute; reflexivity).
  vm_compute in E. injection E as <-. eexists. split; [exact R|]. clear R. repeat split; vm_compute; reflexivity.
Qed.

Lemma start_lemma : reach0 (tree_new 16 tree0) [[a0]; [b0; c0]] [key 16 a0] (start [[a0]; [b0; c0]] [key 16 a0]) /\
  c_up (w_c (start [[a0]; [b0; c0]] [key 16 a0])) = true /\
  exists w', step0 (LRound false true true) (start [[a0]; [b0; c0]] [key 16 a0]) = Some (Ok w').
Proof. split; [apply reach_start|]. split; [reflexivity|]. eexists. vm_compute. reflexivity. Qed.
