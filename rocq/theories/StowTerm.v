(* Every exchange between stow and stevedore comes to an end *)
From Coq Require Import Lia ZifyBool ZifyNat ZifyN Wf_nat.
From Verif Require Import Base BaseLemmas ListLemmas StowModel StowSpec.
Open Scope list_scope.
Open Scope nat_scope.

Fixpoint sum {A} (f : A -> nat) (l : list A) : nat := match l with [] => 0 | x :: r => f x + sum f r end.
Lemma sum_app {A} (f : A -> nat) a b : sum f (a ++ b) = sum f a + sum f b.
Proof. induction a; cbn [app sum]; lia. Qed.

Section Term.
Variables (idsize : N) (prefix : bytes) (sha : bytes -> bytes) (meta_text : list (bytes * bytes) -> list bytes) (tree : subj).
Notation step := (step idsize prefix sha meta_text tree).

(* What is left to do, but for the metadata *)
Definition wx (x : subj) : nat := 1 + 6 * (List.length (j_data x) + 1).
Definition ws (x : subj) : nat := wx x + 13.
Definition bit (b : bool) : nat := if b then 1 else 0.
Definition base (c : client) : nat :=
  match c_tree c with None => 0 | Some r => sum (fun l => 2 + sum ws l) r + (ws tree + ws theend + 2) end +
  sum ws (c_subj c) + sum wx (c_wait c) + sum wx (c_get c) + match c_send c with None => 0 | Some r => 6 * (List.length r + 1) end.
Definition m1c (c : client) : nat := base c + match c_meta c with None => 0 | Some _ => 1 end + bit (c_en c).
Definition wjob (j : option fjob) : nat :=
  match j with None => 0 | Some j => match f_out j with None => 6 + 4 * List.length (f_ids j) | Some o => 5 + 4 * List.length o end end.
Definition m1s (s : server) : nat := 11 * List.length (s_queue s) + wjob (s_job s) + 4 * List.length (s_run s) + bit (s_up s).
Definition wc1 (m : cmsg) : nat := match m with FFilter _ => 12 | FData _ => 5 | FMeta _ => 0 end.
Definition wr1 (m : smsg) : nat := match m with RMsg => 1 | RFilter _ => 3 | RData _ => 3 | RMeta _ => 0 end.
Definition m1 (w : world) : nat := m1c (w_c w) + m1s (w_s w) + sum wc1 (w_cs w) + sum wr1 (w_sc w).
(* and of the metadata *)
Definition wc2 (m : cmsg) : nat := match m with FMeta _ => 3 | _ => 0 end.
Definition wr2 (m : smsg) : nat := match m with RMeta _ => 1 | _ => 0 end.
Definition m2 (w : world) : nat := sum wc2 (w_cs w) + 2 * List.length (s_mrun (w_s w)) + sum wr2 (w_sc w).
Definition less (a b c d : nat) : Prop := a < c \/ (a = c /\ b < d).

Lemma sum_filter n l : sum wc1 (map (fun x => FFilter (cut n (j_dig x))) l) = 12 * List.length l.
Proof. induction l; cbn [map sum wc1 List.length]; lia. Qed.
Lemma sum_meta l : sum wc1 (map FMeta l) = 0.
Proof. induction l; cbn [map sum wc1 List.length]; lia. Qed.
Lemma ws_wx l : sum ws l = sum wx l + 13 * List.length l.
Proof. induction l as [|x l IH]; cbn [sum List.length]; [lia|]. rewrite IH. unfold ws. lia. Qed.

Lemma out_less c c' f : c_en c = true -> stevedore_out meta_text c = (c', f) -> m1c c' + sum wc1 f < m1c c.
Proof.
  unfold stevedore_out. cbv zeta. intros EN. pose proof (firstn_skipn 10 (c_subj c)) as SP.
  assert (NN : skipn 10 (c_subj c) <> [] -> 1 <= List.length (firstn 10 (c_subj c))).
  { destruct (c_subj c); cbn [firstn skipn List.length]; [tauto|lia]. }
  revert SP NN.
  generalize (firstn 10 (c_subj c)) (skipn 10 (c_subj c)). intros now later SP NN E.
  assert (SM : forall x ch, sum wc1 (send_metadata meta_text x ch) = 0).
  { intros x ch. unfold send_metadata. cbn [sum]. rewrite sum_app, sum_meta. auto. }
  unfold m1c, base. rewrite <- SP, EN, !sum_app. pose proof (ws_wx now) as W1.
  assert (CASES : (exists b r, c_send c = Some (b :: r)) \/ (c_send c = None \/ c_send c = Some [])).
  { destruct (c_send c) as [[|b r]|]; eauto. }
  destruct CASES as [(b & r & SN)|SN].
  - rewrite SN in E |- *. injection E as <- <-. cbn [c_tree c_subj c_wait c_get c_ack c_send c_meta c_en]. rewrite EN, !sum_app, sum_filter. cbn [sum wc1 bit List.length]. lia.
  - set (f2 := match c_send c with Some _ => [FData []] | None => [] end) in *.
    assert (F2 : sum wc1 f2 = 5 * match c_send c with None => 0 | Some _ => 1 end) by (unfold f2; destruct (c_send c); auto).
    assert (LE : 5 * match c_send c with None => 0 | Some _ => 1 end <= match c_send c with None => 0 | Some r => 6 * (List.length r + 1) end) by (destruct (c_send c); lia).
    assert (E' : (let cl g a s m e := mkC (c_tree c) later (c_wait c ++ now) g a s (c_size c) m (c_changed c) e (c_up c) in
      let f1 := map (fun x => FFilter (cut (c_size c) (j_dig x))) now in
      match later with
      | _ :: _ => (cl (c_get c) (c_ack c) None (c_meta c) (c_en c), f1 ++ f2)
      | [] =>
          let f3 := match c_meta c with Some x => send_metadata meta_text x (c_changed c) | None => [] end in
          match c_get c with
          | x :: g =>
              if j_file x then (cl g (c_ack c ++ [x]) (Some (j_data x)) None false, f1 ++ f2 ++ f3)
              else (cl g (c_ack c ++ [x]) (Some (j_data x)) (c_meta c) (c_en c), f1 ++ f2)
          | [] => (cl [] (c_ack c) None None false, f1 ++ f2 ++ f3)
          end
      end) = (c', f)).
    { cbv zeta. destruct SN as [SN|SN]; rewrite SN in E; exact E. }
    clear E. cbv zeta in E'.
    set (f3 := match c_meta c with Some x => send_metadata meta_text x (c_changed c) | None => [] end) in *.
    assert (F3 : sum wc1 f3 = 0) by (unfold f3; destruct (c_meta c); auto).
    destruct later as [|z later].
    + destruct (c_get c) as [|x g] eqn:EG.
      * injection E' as <- <-. cbn [c_tree c_subj c_wait c_get c_ack c_send c_meta c_en bit]. rewrite !sum_app, sum_filter, F2, F3. cbn [sum]. lia.
      * destruct (j_file x); injection E' as <- <-; cbn [c_tree c_subj c_wait c_get c_ack c_send c_meta c_en bit]; rewrite ?EN, !sum_app, sum_filter, F2, ?F3; cbn [sum bit]; pose proof (eq_refl : wx x = 1 + 6 * (List.length (j_data x) + 1)); lia.
    + injection E' as <- <-. cbn [c_tree c_subj c_wait c_get c_ack c_send c_meta c_en bit]. rewrite EN, !sum_app, sum_filter, F2. specialize (NN ltac:(discriminate)). cbn [sum bit]. lia.
Qed.

(* ---- the client reads ---- *)
Lemma m1c_base c : base c <= m1c c <= base c + 2.
Proof. unfold m1c, bit. destruct (c_meta c), (c_en c); lia. Qed.
Lemma enable_base c c' : enable c = Ok c' -> base c' = base c /\ c_wait c' = c_wait c.
Proof. unfold enable. destruct (c_up c); [|discriminate]. intros [= <-]. auto. Qed.
Lemma flush_base x r c c' : c_wait c = x :: r -> subj_flush x r c = Ok c' -> base c' <= base c /\ c_wait c' = r.
Proof.
  intros W. unfold subj_flush. assert (B : base (set_wait r c) <= base c). { unfold base. cbn. rewrite W. cbn [sum]. lia. }
  destruct (is_tree x).
  - unfold metadata. intros E. apply enable_base in E. destruct E as [-> ->]. split; auto.
  - intros [= <-]. split; auto.
Qed.
Lemma flush_all_base L : forall c c', c_wait c = L -> flush_all L c = Ok c' -> base c' <= base c.
Proof.
  induction L as [|x L IH]; intros c c' W; cbn [flush_all].
  - intros [= <-]. auto.
  - destruct (subj_flush x L c) as [c1| | |] eqn:E; try discriminate. cbn [bind]. destruct (flush_base _ _ _ _ W E) as [B W1]. intros H. apply IH in H; auto. lia.
Qed.
Lemma flush_n_base L : forall u c c', c_wait c = L -> flush_n u L c = Ok c' -> base c' <= base c.
Proof.
  induction L as [|x L IH]; intros u c c' W; cbn [flush_n]; destruct (u =? 0)%N; try discriminate; try (intros [= <-]; auto; fail).
  destruct (subj_flush x L c) as [c1| | |] eqn:E; try discriminate. cbn [bind]. destruct (flush_base _ _ _ _ W E) as [B W1]. intros H. apply IH in H; auto. lia.
Qed.
Lemma flush_to_base p L : forall c c', c_wait c = L -> flush_to p L c = Ok c' -> base c' <= base c.
Proof.
  induction L as [|x L IH]; intros c c' W; cbn [flush_to]; [discriminate|].
  destruct (_ <? _)%N; [discriminate|]. destruct (bytes_eqb _ _).
  - intros [= <-]. unfold base. cbn [c_tree c_subj c_wait c_get c_send]. rewrite W, sum_app. cbn [sum]. lia.
  - destruct (subj_flush x L c) as [c1| | |] eqn:E; try discriminate. cbn [bind]. destruct (flush_base _ _ _ _ W E) as [B W1]. intros H. apply IH in H; auto. lia.
Qed.
Lemma filter_resp_base p c c' : filter_resp p c = Ok c' -> base c' <= base c.
Proof.
  unfold filter_resp. intros H.
  match type of H with bind ?r _ = _ => destruct r as [c1| | |] eqn:E; cbn [bind] in H; try discriminate end.
  apply enable_base in H. destruct H as [-> _]. destruct (len p) as [|q] eqn:Z.
  - eapply flush_all_base; eauto.
  - assert (G : (if ((16 <=? N.pos q) && (N.pos q <=? 64))%N then
          flush_to p (c_wait c) (mkC (c_tree c) (c_subj c) (c_wait c) (c_get c) (c_ack c) (c_send c) (N.pos q) (c_meta c) (c_changed c) (c_en c) (c_up c))
        else Abort) = Ok c1 -> base c1 <= base c).
    { destruct ((16 <=? N.pos q) && (N.pos q <=? 64))%N; intros H; [|discriminate H]. apply flush_to_base in H; auto. }
    destruct q as [q|q|]; auto. destruct q as [q|q|]; auto. destruct q as [q|q|]; auto.
    eapply flush_n_base; eauto.
Qed.
Lemma data_resp_base p c c' : data_resp p c = Ok c' -> base c' <= base c.
Proof.
  unfold data_resp. destruct (c_ack c) as [|x r]; [discriminate|]. destruct (behind p); [|discriminate].
  destruct (is_tree x); [destruct (bytes_eqb _ _); [|discriminate]|]; intros H; try unfold metadata in H; apply enable_base in H; destruct H as [-> _]; auto.
Qed.

Lemma in_less m c c' : stevedore_in m c = Ok c' -> less (m1c c') 0 (m1c c + wr1 m) (wr2 m).
Proof.
  destruct m as [|p|p|p]; cbn [stevedore_in wr1 wr2]; intros E.
  - injection E as <-. left. lia.
  - apply filter_resp_base in E. pose proof (m1c_base c). pose proof (m1c_base c'). left. lia.
  - apply data_resp_base in E. pose proof (m1c_base c). pose proof (m1c_base c'). left. lia.
  - destruct (c_up c); [|discriminate]. injection E as <-. right. unfold m1c, base. cbn. lia.
Qed.

Lemma mtree_less c c' : c_tree c <> None -> mtree_in tree c = Ok c' -> m1c c' < m1c c.
Proof.
  unfold mtree_in. destruct (c_tree c) as [[|l r]|] eqn:ET; [| |tauto]; intros _ E.
  - unfold enable in E. destruct (c_up _); [|discriminate]. injection E as <-. unfold m1c, base. cbn [c_tree c_subj c_wait c_get c_send c_meta c_en bit]. rewrite ET, sum_app. cbn [sum]. lia.
  - assert (B : base c' + 2 <= base c /\ (c_meta c' = c_meta c)).
    { destruct l as [|x l]; [|unfold enable in E; destruct (c_up _); [|discriminate]]; injection E as <-; unfold base; cbn [c_tree c_subj c_wait c_get c_send c_meta];
        rewrite ET, sum_app; cbn [sum]; split; auto; lia. }
    destruct B as [B M]. unfold m1c, bit. rewrite M. destruct (c_en c'), (c_en c); lia.
Qed.

Lemma round_less o i t w w' : ready o i t w = true -> round meta_text tree o i t w = Ok w' -> less (m1 w') (m2 w') (m1 w) (m2 w).
Proof.
  unfold ready, StowModel.round. intros RD E.
  repeat (apply andb_prop in RD; destruct RD as [RD ?]). rename H into R4, H0 into R3, H1 into R2, H2 into R1.
  assert (G : exists c f, (if o then stevedore_out meta_text (w_c w) else (w_c w, [])) = (c, f) /\ (if o then m1c c + sum wc1 f < m1c (w_c w) else c = w_c w /\ f = []) /\ c_tree c = c_tree (w_c w)).
  { destruct o; [|eauto 7]. destruct (stevedore_out meta_text (w_c w)) as [c f] eqn:EO. exists c, f. split; auto. split.
    - apply out_less; auto. cbn in R1. apply andb_prop in R1. tauto.
    - revert EO. unfold stevedore_out. cbv zeta. generalize (firstn 10 (c_subj (w_c w))) (skipn 10 (c_subj (w_c w))). intros now later.
      destruct (c_send (w_c w)) as [[|b r]|]; [destruct later; [destruct (c_get (w_c w)) as [|y g]; [|destruct (j_file y)]|]| |destruct later; [destruct (c_get (w_c w)) as [|y g]; [|destruct (j_file y)]|]];
        intros [= <- <-]; auto. }
  destruct G as (c & f & G1 & G2 & TR). rewrite G1 in E.
  destruct (match i, w_sc w with true, m :: r => let* c0 := stevedore_in m c in Ok (c0, r) | _, _ => Ok (c, w_sc w) end) as [[c2 sc]| | |] eqn:E2; try discriminate.
  cbn [bind] in E. destruct (if t then mtree_in tree c2 else Ok c2) as [c3| | |] eqn:E3; try discriminate. injection E as <-.
  assert (G3 : if i then less (m1c c2 + sum wr1 sc) (sum wr2 sc) (m1c c + sum wr1 (w_sc w)) (sum wr2 (w_sc w)) else c2 = c /\ sc = w_sc w).
  { destruct i; [|injection E2 as <- <-; auto]. destruct (w_sc w) as [|m r]; [discriminate|].
    destruct (stevedore_in m c) as [c0| | |] eqn:E4; try discriminate. injection E2 as <- <-. apply in_less in E4. cbn [sum]. unfold less in *. lia. }
  assert (G4 : if t then m1c c3 < m1c c2 \/ c_tree c2 = None else c3 = c2).
  { destruct t; [|congruence]. destruct (c_tree c2) eqn:ET; auto. left. apply mtree_less; auto. congruence. }
  assert (G5 : m1c c3 <= m1c c2). { destruct t; [|subst; auto]. destruct G4 as [G4|G4]; [lia|]. unfold mtree_in in E3. rewrite G4 in E3. injection E3 as <-. auto. }
  assert (TR2 : i = false -> c_tree c2 = c_tree (w_c w)). { intros ->. destruct G3 as [-> _]. auto. }
  unfold m1, m2, less in *. cbn [w_c w_s w_cs w_sc]. rewrite !sum_app.
  destruct o, i; try destruct G2 as [-> ->]; try destruct G3 as [-> ->]; cbn [sum] in *; try lia.
  destruct t; [|discriminate]. destruct G4 as [G4|G4]; [lia|]. rewrite G4 in R3. discriminate.
Qed.

(* ---- the server ---- *)
Lemma skip_w q : forall f q', skip_empty q = (f, q') -> sum wr1 f + 11 * List.length q' <= 11 * List.length q /\ sum wr2 f = 0 /\
  (forall d r, q' = d :: r -> d <> []) /\ (q' <> [] -> sum wr1 f + 11 * List.length q' <= 11 * List.length q).
Proof.
  induction q as [|d q IH]; intros f q' E.
  - injection E as <- <-. cbn. repeat split; auto. discriminate.
  - destruct d as [|b d].
    + cbn [skip_empty] in E. destruct (skip_empty q) as [f1 q1]. injection E as <- <-. destruct (IH _ _ eq_refl) as (I1 & I2 & I3 & I4). cbn [sum wr1 wr2 List.length]. repeat split; auto; lia.
    + injection E as <- <-. cbn [sum]. repeat split; auto. intros ? ? [= <- _]. discriminate.
Qed.
Lemma take_w q : forall n, List.length (fst (take_batch n q)) + List.length (snd (take_batch n q)) = List.length q /\
  (forall d r, q = d :: r -> d <> [] -> 1 <= List.length (fst (take_batch n q))).
Proof.
  induction q as [|d q IH]; intros n; cbn [take_batch].
  - split; auto. discriminate.
  - destruct d as [|b d].
    + cbn. split; auto. intros ? ? [= <- _]. tauto.
    + destruct (n =? 1)%N.
      * cbn. split; auto.
      * destruct (IH (n - 1)%N) as [I1 _]. destruct (take_batch (n - 1) q) as [a r]. cbn [fst snd List.length] in *. split; [lia|]. intros. lia.
Qed.
Lemma start_w s s' f : s_job s = None -> start_filter s = (s', f) ->
  11 * List.length (s_queue s') + wjob (s_job s') + sum wr1 f <= 11 * List.length (s_queue s) /\ sum wr2 f = 0 /\ s_run s' = s_run s /\ s_up s' = s_up s /\ s_mrun s' = s_mrun s.
Proof.
  unfold start_filter. intros J E. destruct (skip_empty (s_queue s)) as [f1 q] eqn:ES. destruct (skip_w _ _ _ ES) as (I1 & I2 & I3 & I4).
  destruct q as [|d q].
  - injection E as <- <-. cbn [s_queue s_job s_run s_up s_mrun]. rewrite J. cbn [wjob List.length] in *. repeat split; auto; lia.
  - destruct (take_w (d :: q) 40960) as [T1 T2]. specialize (T2 _ _ eq_refl (I3 _ _ eq_refl)). destruct (take_batch 40960 (d :: q)) as [ids q'] eqn:ET.
    assert (E' : (mkS (s_en s) (s_up s) q' (Some (mkF ids (s_arch s) None (len ids))) (s_store s) (s_run s) (s_meta s) (s_mrun s) (s_arch s), f1) = (s', f)) by exact E.
    injection E' as <- <-. cbn [s_queue s_job s_run s_up s_mrun wjob f_out f_ids fst snd] in *. repeat split; auto. lia.
Qed.

Lemma step_less l w w' : not_other l -> step l w = Some (Ok w') -> less (m1 w') (m2 w') (m1 w) (m2 w).
Proof.
  intros NO E. destruct l as [o i t| | |th| | |n| |id]; cbn [StowModel.step] in E.
  - destruct (ready o i t w) eqn:ER; [|discriminate]. injection E as E. eapply round_less; eauto.
  - destruct (s_up (w_s w) && s_en (w_s w)); [|discriminate]. destruct (w_cs w) as [|m q] eqn:CS; [discriminate|].
    injection E as E. unfold put_s in E. destruct (input idsize m (w_s w)) as [[s f]| | |] eqn:EI; try discriminate. injection E as <-.
    unfold m1, m2, less. cbn [w_c w_s w_cs w_sc]. rewrite CS, !sum_app. cbn [sum].
    destruct m as [d|d|d]; cbn [input] in EI; cbn [wc1 wc2].
    + destruct (_ || _); [|discriminate]. destruct (s_job (w_s w)) eqn:EJ.
      * injection EI as <- <-. unfold m1s. cbn [s_queue s_job s_run s_up s_mrun sum]. rewrite app_length, EJ. cbn [List.length]. lia.
      * injection EI as EI. apply start_w in EI; [|auto]. destruct EI as (I1 & I2 & I3 & I4 & I5). cbn [s_queue s_run s_up s_mrun] in *. unfold m1s. rewrite I3, I4, EJ. rewrite app_length in I1. cbn [List.length wjob] in *. lia.
    + destruct d; [destruct (s_store (w_s w)); [|discriminate]|]; injection EI as <- <-; unfold m1s; cbn [s_queue s_job s_run s_up s_mrun sum]; rewrite ?app_length; cbn [List.length]; lia.
    + destruct (s_meta (w_s w)); [destruct d|]; injection EI as <- <-; unfold m1s; cbn [s_queue s_job s_run s_up s_mrun sum]; rewrite ?app_length; cbn [List.length]; lia.
  - destruct (s_up (w_s w)) eqn:SU; [|discriminate]. cbn [andb] in E. destruct (s_en (w_s w) && is_nil (w_cs w) && negb (c_up (w_c w))) eqn:EE; [|discriminate]. injection E as <-.
    apply andb_prop in EE. destruct EE as [EE _]. apply andb_prop in EE. destruct EE as [_ EE]. destruct (w_cs w) eqn:CS; [|discriminate].
    unfold m1, m2, less, m1s. cbn [w_c w_s w_cs w_sc s_queue s_job s_run s_up s_mrun]. rewrite SU, !sum_app. cbn [sum bit]. lia.
  - destruct (s_job (w_s w)) as [j|] eqn:EJ; [|discriminate]. destruct (f_out j) eqn:EO; [discriminate|]. injection E as <-.
    unfold m1, m2, less, m1s. cbn [w_c w_s w_cs w_sc s_queue s_job s_run s_up s_mrun]. rewrite EJ, !sum_app. cbn [sum wjob f_out]. rewrite EO.
    assert (LF : List.length (filter (fun d => negb (th (cut idsize d))) (f_ids j)) <= List.length (f_ids j)).
    { generalize (f_ids j). intros L. induction L as [|d L IH]; cbn [filter List.length]; auto. destruct (negb _); cbn [List.length]; lia. }
    lia.
  - destruct (s_job (w_s w)) as [j|] eqn:EJ; [|discriminate]. destruct (f_out j) as [[|d r]|] eqn:EO; try discriminate. injection E as E. unfold put_s, filter_line in E.
    destruct (_ && _); [|discriminate]. injection E as <-.
    unfold m1, m2, less, m1s. cbn [w_c w_s w_cs w_sc s_queue s_job s_run s_up s_mrun]. rewrite EJ, !sum_app. cbn [sum wjob f_out wr1 wr2]. rewrite EO. cbn [List.length]. lia.
  - destruct (s_job (w_s w)) as [j|] eqn:EJ; [|discriminate]. destruct (f_out j) as [[|d r]|] eqn:EO; try discriminate. injection E as E. unfold put_s in E.
    destruct (filter_end j (w_s w)) as [s f] eqn:EI. injection E as <-. unfold filter_end in EI.
    set (f1 := if (f_skip j =? 0)%N then [] else [RFilter (be_enc 4 (f_skip j))]) in *.
    assert (F1 : sum wr1 f1 <= 3 /\ sum wr2 f1 = 0). { unfold f1. destruct (f_skip j =? 0)%N; cbn; lia. }
    set (s1 := mkS (s_en (w_s w)) (s_up (w_s w)) (s_queue (w_s w)) None (s_store (w_s w)) (s_run (w_s w)) (s_meta (w_s w)) (s_mrun (w_s w)) (s_arch (w_s w))) in *.
    assert (G : 11 * List.length (s_queue s) + wjob (s_job s) + sum wr1 f <= 11 * List.length (s_queue (w_s w)) + 3 /\ sum wr2 f = 0 /\ s_run s = s_run (w_s w) /\ s_up s = s_up (w_s w) /\ s_mrun s = s_mrun (w_s w)).
    { cbn [s1 s_queue] in EI. destruct (s_queue (w_s w)) eqn:EQ.
      - injection EI as <- <-. cbn [s1 s_queue s_job s_run s_up s_mrun]. rewrite ?EQ. cbn [wjob List.length]. repeat split; auto; lia.
      - destruct (start_filter s1) as [s2 g] eqn:E2. injection EI as <- <-. apply start_w in E2; [|auto]. destruct E2 as (I1 & I2 & I3 & I4 & I5).
        cbn [s1 s_queue s_run s_up s_mrun] in *. rewrite ?EQ in *. rewrite !sum_app. repeat split; auto; lia. }
    destruct G as (I1 & I2 & I3 & I4 & I5). unfold m1, m2, less, m1s. cbn [w_c w_s w_cs w_sc]. rewrite I3, I4, I5, EJ, !sum_app. cbn [wjob]. rewrite EO. cbn [List.length]. lia.
  - destruct (nth_error (s_run (w_s w)) n) as [d|] eqn:EN; [|discriminate].
    assert (LR : List.length (firstn n (s_run (w_s w)) ++ skipn (S n) (s_run (w_s w))) + 1 = List.length (s_run (w_s w))).
    { assert (LN : n < List.length (s_run (w_s w))) by (apply nth_error_Some; congruence). rewrite app_length, firstn_length, skipn_length. lia. }
    revert LR E. generalize (firstn n (s_run (w_s w)) ++ skipn (S n) (s_run (w_s w))). intros run LR E. injection E as E. unfold put_s, store_line in E.
    destruct (s_up (w_s w)) eqn:SU; [|discriminate]. injection E as <-.
    unfold m1, m2, less, m1s. cbn [w_c w_s w_cs w_sc s_queue s_job s_run s_up s_mrun]. rewrite SU, !sum_app. cbn [sum wr1 wr2 bit]. lia.
  - destruct (s_mrun (w_s w)) as [|d r] eqn:EN; [discriminate|]. injection E as E. unfold put_s, meta_line in E. destruct (s_up (w_s w)) eqn:SU; [|discriminate]. injection E as <-.
    unfold m1, m2, less, m1s. cbn [w_c w_s w_cs w_sc s_queue s_job s_run s_up s_mrun]. rewrite SU, EN, !sum_app. cbn [sum wr1 wr2 bit List.length]. lia.
  - contradiction.
Qed.

Lemma other_same id w w' : step (LOther id) w = Some (Ok w') -> m1 w' = m1 w /\ m2 w' = m2 w.
Proof. intros [= <-]. unfold m1, m2, m1s. cbn. rewrite !sum_app. cbn [sum]. lia. Qed.

Notation others := (others idsize prefix sha meta_text tree).
Lemma others_same w w' : others w w' -> m1 w' = m1 w /\ m2 w' = m2 w.
Proof. induction 1 as [|w w1 w2 id H IH E]; auto. apply other_same in E. lia. Qed.

Lemma finite_lemma w : Acc (fun w2 w => exists w1 l, others w w1 /\ not_other l /\ step l w1 = Some (Ok w2)) w.
Proof.
  remember (m1 w) as a eqn:EA. remember (m2 w) as b eqn:EB. revert b w EA EB.
  induction a as [a IHa] using lt_wf_ind. induction b as [b IHb] using lt_wf_ind. intros w EA EB. constructor. intros w2 (w1 & l & O & NO & E).
  apply others_same in O. apply step_less in E; auto. destruct E as [E|[E1 E2]].
  - eapply IHa; eauto. lia.
  - eapply IHb; eauto; lia.
Qed.
End Term.
