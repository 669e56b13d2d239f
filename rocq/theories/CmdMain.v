(* Proofs about command lines. *)
From Coq Require Import String.
From Coq Require Import ZifyBool ZifyNat ZifyN.
From Verif Require Import Base BaseLemmas ListLemmas IndexModel IndexSpec HeaderModel ProgModel StoreModel StoreSpec StoreWp StoreAgain LiveMain LiveJob ConfigModel ConfigSpec ConfigProofs CmdModel CmdSpec.
Open Scope string_scope.
Open Scope list_scope.
Open Scope N_scope.

Definition ev (o : N * option bytes) : optev := OOpt (fst o) (snd o).

Section Getopt.
Variables (ostr : bytes) (vals flags : bytes).
Hypothesis TV : forall c, takes ostr c = Some true <-> In c vals.
Hypothesis TF : forall c, takes ostr c = Some false <-> In c flags.
Hypothesis NF : ~ In 45 flags.
Hypothesis NV : ~ In 45 vals.

Lemma group_flags fl p next : Forall (fun c => In c flags) fl ->
  group ostr (fl ++ p) next = let (e, n) := group ostr p next in (map ev (flag_opts fl) ++ e, n).
Proof.
  induction 1 as [|c fl H F IH]; cbn [app group flag_opts map].
  - destruct (group ostr p next). auto.
  - apply TF in H. rewrite H, IH. destruct (group ostr p next). auto.
Qed.
Lemma group_only fl next : Forall (fun c => In c flags) fl -> group ostr fl next = (map ev (flag_opts fl), next).
Proof. intros H. rewrite <- (app_nil_r fl) at 1. rewrite group_flags by auto. cbn. rewrite app_nil_r. auto. Qed.
Lemma group_next fl c v next : Forall (fun c => In c flags) fl -> In c vals ->
  group ostr (fl ++ [c]) (v :: next) = (map ev (flag_opts fl ++ [(c, Some v)]), next).
Proof. intros H HC. apply TV in HC. rewrite group_flags by auto. cbn [group]. rewrite HC, map_app. auto. Qed.
Lemma group_joined fl c v next : Forall (fun c => In c flags) fl -> In c vals -> v <> [] ->
  group ostr (fl ++ c :: v) next = (map ev (flag_opts fl ++ [(c, Some v)]), next).
Proof. intros H HC HV. apply TV in HC. rewrite group_flags by auto. cbn [group]. rewrite HC, map_app. destruct v; [contradiction|auto]. Qed.

Lemma group_inv : forall p next os n, group ostr p next = (map ev os, n) ->
  (Forall (fun c => In c flags) p /\ os = flag_opts p /\ n = next) \/
  (exists fl c v, Forall (fun c => In c flags) fl /\ In c vals /\ p = fl ++ [c] /\ next = v :: n /\ os = flag_opts fl ++ [(c, Some v)]) \/
  (exists fl c v, Forall (fun c => In c flags) fl /\ In c vals /\ v <> [] /\ p = fl ++ c :: v /\ n = next /\ os = flag_opts fl ++ [(c, Some v)]).
Proof.
  induction p as [|c p IH]; intros next os n E; cbn [group] in E.
  - injection E as E1 E2. destruct os; [|discriminate]. left. auto.
  - destruct (takes ostr c) as [[]|] eqn:T.
    + apply TV in T. destruct p as [|x p].
      * destruct next as [|v r].
        -- injection E as E1 E2. destruct os as [|o os]; discriminate.
        -- injection E as E1 E2. destruct os as [|[oc ov] [|]]; try discriminate. cbn in E1. injection E1 as <- <-. subst r.
           right. left. exists [], c, v. cbn. auto.
      * injection E as E1 E2. destruct os as [|[oc ov] [|]]; try discriminate. cbn in E1. injection E1 as <- <-. subst n.
        right. right. exists [], c, (x :: p). assert (x :: p <> []) by discriminate. cbn [flag_opts map app]. auto 10.
    + apply TF in T. destruct (group ostr p next) as [e n'] eqn:G. injection E as E1 E2. subst n'.
      destruct os as [|[oc ov] os]; [discriminate|]. cbn in E1. injection E1 as <- <- ->. apply IH in G.
      destruct G as [(A & -> & ->)|[(fl & d & v & A & B & -> & -> & ->)|(fl & d & v & A & B & V & -> & -> & ->)]].
      * left. auto.
      * right. left. exists (c :: fl), d, v. cbn. auto 10.
      * right. right. exists (c :: fl), d, v. cbn. auto 10.
    + destruct (group ostr p next). injection E as E1 E2. destruct os; discriminate.
Qed.

Lemma loop_written os ops args : written vals flags os ops args ->
  forall fuel, (List.length args <= fuel)%nat -> getopt_loop fuel ostr args = (map ev os, ops).
Proof.
  induction 1 as [ops P|ops|fl os ops args N F W IH|fl c v os ops args F I W IH|fl c v os ops args F I V W IH]; intros fuel FU.
  - destruct fuel; [destruct ops; auto|]. cbn [getopt_loop]. destruct ops as [|[|d [|c q]] r]; auto.
    unfold plain in P. replace (d =? 45) with false by lia. auto.
  - destruct fuel; [cbn in FU; lia|]. reflexivity.
  - destruct fuel; [cbn in FU; lia|]. cbn [getopt_loop]. destruct fl as [|c fl]; [contradiction|]. cbn [negb N.eqb].
    replace (45 =? 45) with true by reflexivity. cbn [negb].
    replace (c =? 45) with false; [|inversion_clear F; symmetry; apply N.eqb_neq; intros ->; auto]. cbn [andb].
    rewrite group_only by auto. rewrite IH by (cbn in FU; lia). rewrite map_app. auto.
  - destruct fuel; [cbn in FU; lia|]. cbn [getopt_loop].
    assert (G := group_next fl c v args F I).
    destruct (fl ++ [c]) as [|d q] eqn:E; [destruct fl; discriminate|]. replace (45 =? 45) with true by reflexivity. cbn [negb].
    replace (d =? 45) with false.
    2:{ symmetry. apply N.eqb_neq. intros ->. destruct fl; cbn in E; injection E; intros; subst; [auto|]. inversion_clear F; auto. }
    cbn [andb]. rewrite G. rewrite IH by (cbn in FU; lia). rewrite !map_app, <- app_assoc. auto.
  - destruct fuel; [cbn in FU; lia|]. cbn [getopt_loop].
    assert (G := group_joined fl c v args F I V).
    destruct (fl ++ c :: v) as [|d q] eqn:E; [destruct fl; discriminate|]. replace (45 =? 45) with true by reflexivity. cbn [negb].
    replace (d =? 45) with false.
    2:{ symmetry. apply N.eqb_neq. intros ->. destruct fl; cbn in E; injection E; intros; subst; [auto|]. inversion_clear F; auto. }
    cbn [andb]. rewrite G. rewrite IH by (cbn in FU; lia). rewrite !map_app, <- app_assoc. auto.
Qed.

Lemma map_ev_app l a b : map ev l = a ++ b -> exists x y, l = x ++ y /\ map ev x = a /\ map ev y = b.
Proof. intros H. apply map_eq_app in H. destruct H as (x & y & -> & <- & <-). eauto. Qed.

Lemma loop_inv : forall fuel args os ops, (List.length args <= fuel)%nat -> getopt_loop fuel ostr args = (map ev os, ops) ->
  written vals flags os ops args.
Proof.
  induction fuel as [|fuel IH]; intros args os ops FU E.
  - destruct args; [|cbn in FU; lia]. cbn in E. injection E as E1 <-. destruct os; [|discriminate]. constructor. exact I.
  - cbn [getopt_loop] in E. destruct args as [|[|d [|c q]] r].
    + injection E as E1 <-. destruct os; [|discriminate]. constructor. exact I.
    + injection E as E1 <-. destruct os; [|discriminate]. constructor. exact I.
    + injection E as E1 <-. destruct os; [|discriminate]. constructor. exact I.
    + destruct (d =? 45) eqn:D; cbn [negb] in E.
      2:{ injection E as E1 <-. destruct os; [|discriminate]. constructor. cbn. lia. }
      apply N.eqb_eq in D. subst d. destruct (andb _ _) eqn:A in E.
      * injection E as E1 <-. destruct os; [|discriminate]. apply andb_true_iff in A. destruct A as (A & B). apply N.eqb_eq in A. subst c.
        destruct q; [|discriminate]. apply wr_dashes.
      * destruct (group ostr (c :: q) r) as [e n] eqn:G. destruct (getopt_loop fuel ostr n) as [e' o] eqn:G'.
        injection E as E1 <-. symmetry in E1. apply map_ev_app in E1. destruct E1 as (x & y & -> & <- & <-).
        apply group_inv in G. destruct G as [(F & -> & ->)|[(fl & k & v & F & K & P & -> & ->)|(fl & k & v & F & K & V & P & -> & ->)]].
        -- apply wr_flags; [discriminate|auto|]. apply IH; [cbn in FU; lia|auto].
        -- rewrite <- app_assoc. cbn [app]. rewrite P. apply wr_next; auto. apply IH; [cbn in FU; lia|auto].
        -- rewrite <- app_assoc. cbn [app]. rewrite P. apply wr_joined; auto. apply IH; [cbn in FU; lia|auto].
Qed.
End Getopt.

Lemma takes_cons x r c : takes (x :: r) c = if (x =? c) && negb (c =? 58) then Some (match r with y :: _ => y =? 58 | [] => false end) else takes r c.
Proof. reflexivity. Qed.
Ltac takes_tac l := intros c; split; intros H;
  [match type of H with takes ?s _ = _ => change s with l in H end; rewrite !takes_cons in H;
   repeat match type of H with
     | (if ?b then _ else _) = _ => let E := fresh in destruct b eqn:E; [rewrite andb_true_iff, N.eqb_eq, negb_true_iff, N.eqb_neq in E; destruct E; subst|]
     end; try (cbn in H; discriminate); try contradiction; cbn; auto 10
  |cbn in H; repeat destruct H as [<-|H]; try contradiction; reflexivity].

Lemma store_getopt os ops args : written store_vals store_flags os ops args <-> getopt "hi:m:t:r:" args = (map ev os, ops).
Proof.
  assert (TV : forall c, takes (str "hi:m:t:r:") c = Some true <-> In c store_vals) by takes_tac ([104;105;58;109;58;116;58;114;58]).
  assert (TF : forall c, takes (str "hi:m:t:r:") c = Some false <-> In c store_flags) by takes_tac ([104;105;58;109;58;116;58;114;58]).
  split; intros H.
  - eapply loop_written; eauto; try (cbn; unfold o_h, o_i, o_m, o_t, o_r; lia).
  - eapply loop_inv; eauto; try (cbn; unfold o_h, o_i, o_m, o_t, o_r; lia).
Qed.
Lemma main_getopt os ops args : written main_vals main_flags os ops args <-> getopt "c:hj" args = (map ev os, ops).
Proof.
  assert (TV : forall c, takes (str "c:hj") c = Some true <-> In c main_vals) by takes_tac ([99;58;104;106]).
  assert (TF : forall c, takes (str "c:hj") c = Some false <-> In c main_flags) by takes_tac ([99;58;104;106]).
  split; intros H.
  - eapply loop_written; eauto; try (cbn; unfold o_h, o_c, o_j; lia).
  - eapply loop_inv; eauto; try (cbn; unfold o_h, o_c, o_j; lia).
Qed.

Lemma written_wf vals flags os ops args : written vals flags os ops args ->
  Forall (fun o => match snd o with Some _ => In (fst o) vals | None => In (fst o) flags end) os.
Proof.
  assert (FL : forall fl, Forall (fun c => In c flags) fl ->
    Forall (fun o : N * option bytes => match snd o with Some _ => In (fst o) vals | None => In (fst o) flags end) (flag_opts fl)).
  { induction 1; constructor; auto. }
  induction 1; auto; try (apply Forall_app; split; auto); constructor; auto.
Qed.

Lemma last_first {A} (a d : A) l : last (a :: l) d = last l a.
Proof. revert a d. induction l as [|b l IH]; intros a d; [auto|]. change (last (b :: l) d = last (b :: l) a). rewrite (IH b d), (IH b a). auto. Qed.

Definition keeps {A} (P : bytes -> A -> Prop) (old : option A) (l : list bytes) (new : option A) : Prop :=
  match old with
  | Some b => l = [] /\ new = Some b
  | None => l = [] /\ new = None \/ exists v b, l = [v] /\ new = Some b /\ P v b
  end.
Definition typed (v : bytes) (b : bool) : Prop := lower v = str "resource" /\ b = false \/ lower v = str "metadata" /\ b = true.

Lemma keeps_cons {A} (P : bytes -> A -> Prop) v b l new : P v b -> keeps P (Some b) l new -> keeps P None (v :: l) new.
Proof. intros H (-> & ->). right. eauto. Qed.
Lemma keeps_cons_inv {A} (P : bytes -> A -> Prop) v l new : keeps P None (v :: l) new -> exists b, P v b /\ keeps P (Some b) l new.
Proof. intros [(H & _)|(w & b & E & -> & H)]; [discriminate|]. injection E as <- ->. exists b. cbn. auto. Qed.

Definition opts_sp (os : list (N * option bytes)) (o o' : sopts) : Prop :=
  ~ In (o_h, None) os /\ keeps typed (so_t o) (given o_t os) (so_t o') /\ so_m o' = last (given o_m os) (so_m o) /\
  keeps eq (so_r o) (given o_r os) (so_r o') /\ keeps eq (so_i o) (given o_i os) (so_i o').

Lemma given_cons c x v os : given c ((x, Some v) :: os) = (if x =? c then [v] else []) ++ given c os.
Proof. reflexivity. Qed.

Lemma opts_spec : forall os o o',
  Forall (fun o => match snd o with Some _ => In (fst o) store_vals | None => In (fst o) store_flags end) os ->
  (store_opts o (map ev os) = Some o' <-> opts_sp os o o').
Proof.
  induction os as [|[c v] os IH]; intros o o' WF.
  - cbn [map store_opts]. unfold opts_sp. cbn [given flat_map last]. unfold keeps. split.
    + intros E. injection E as <-. split; [auto|]. destruct (so_t o), (so_r o), (so_i o); auto 10.
    + intros (_ & T & M & R & I). f_equal. destruct o as [t m r i], o' as [t' m' r' i']. cbn in *.
      assert (X : forall A (P : bytes -> A -> Prop) a b, keeps P a [] b -> a = b).
      { intros A P [x|] b; cbn; [intros (_ & ->); auto|]. intros [(_ & ->)|(? & ? & ? & _)]; [auto|discriminate]. }
      apply X in T, R, I. congruence.
  - inversion_clear WF as [|? ? W WF']. cbn [map store_opts]. cbn [fst snd] in W. unfold opts_sp.
    destruct v as [v|].
    + assert (NH : ~ In (o_h, None) ((c, Some v) :: os) <-> ~ In (o_h, None) os) by (cbn; intuition congruence).
      unfold ev. cbn [fst snd]. rewrite !given_cons. destruct W as [<-|[<-|[<-|[<-|[]]]]].
      * unfold store_opt, o_i, o_t, o_m, o_r. cbn [N.eqb Pos.eqb app]. destruct (so_i o) as [x|] eqn:S.
        -- split; [discriminate|]. intros (_ & _ & _ & _ & (H & _)). discriminate.
        -- rewrite IH by auto. unfold opts_sp. cbn [so_t so_m so_r so_i]. rewrite NH. split.
           ++ intros (A & B & D & E & F). repeat (split; [assumption|]). eapply keeps_cons; eauto.
           ++ intros (A & B & D & E & F). repeat (split; [assumption|]). apply keeps_cons_inv in F. destruct F as (b & <- & F). exact F.
      * unfold store_opt, o_i, o_t, o_m, o_r. cbn [N.eqb Pos.eqb app]. rewrite IH by auto. unfold opts_sp. cbn [so_t so_m so_r so_i]. rewrite NH, last_first. reflexivity.
      * unfold store_opt, o_i, o_t, o_m, o_r. cbn [N.eqb Pos.eqb app]. destruct (so_t o) as [x|] eqn:S.
        -- split; [discriminate|]. intros (_ & (H & _) & _). discriminate.
        -- destruct (caseeq v (str "resource")) eqn:C1; [|destruct (caseeq v (str "metadata")) eqn:C2].
           ++ apply caseeq_true in C1. rewrite IH by auto. unfold opts_sp. cbn [so_t so_m so_r so_i]. rewrite NH. split.
              ** intros (A & B & D & E & F). repeat (split; [assumption|]). split; [|auto]. eapply keeps_cons; [|eauto]. left. auto.
              ** intros (A & B & D & E & F). repeat (split; [assumption|]). split; [|auto]. apply keeps_cons_inv in B.
                 destruct B as (b & [(_ & ->)|(X & ->)] & B); [exact B|]. rewrite C1 in X. discriminate.
           ++ apply caseeq_true in C2. rewrite IH by auto. unfold opts_sp. cbn [so_t so_m so_r so_i]. rewrite NH. split.
              ** intros (A & B & D & E & F). repeat (split; [assumption|]). split; [|auto]. eapply keeps_cons; [|eauto]. right. auto.
              ** intros (A & B & D & E & F). repeat (split; [assumption|]). split; [|auto]. apply keeps_cons_inv in B.
                 destruct B as (b & [(X & ->)|(_ & ->)] & B); [|exact B]. rewrite C2 in X. discriminate.
           ++ split; [discriminate|]. intros (_ & B & _). apply keeps_cons_inv in B. destruct B as (b & [(X & _)|(X & _)] & _).
              ** assert (Y : caseeq v (str "resource") = true) by (apply caseeq_true; auto). congruence.
              ** assert (Y : caseeq v (str "metadata") = true) by (apply caseeq_true; auto). congruence.
      * unfold store_opt, o_i, o_t, o_m, o_r. cbn [N.eqb Pos.eqb app]. destruct (so_r o) as [x|] eqn:S.
        -- split; [discriminate|]. intros (_ & _ & _ & (H & _) & _). discriminate.
        -- rewrite IH by auto. unfold opts_sp. cbn [so_t so_m so_r so_i]. rewrite NH. split.
           ++ intros (A & B & D & E & F). repeat (split; [assumption|]). split; [|auto]. eapply keeps_cons; eauto.
           ++ intros (A & B & D & E & F). repeat (split; [assumption|]). split; [|auto]. apply keeps_cons_inv in E. destruct E as (b & <- & E). exact E.
    + destruct W as [<-|[]]. unfold ev. cbn [fst snd store_opt o_h]. split; [discriminate|]. intros (H & _). exfalso. apply H. left. auto.
Qed.

Lemma mime_spec cfg meta m : mime_type cfg meta m = true <->
  exists sc e, first_section cfg (if meta then str "metadata.mime-types" else str "resource.mime-types") sc /\ In e (s_entries sc) /\ entry_matches m e.
Proof.
  unfold mime_type. pose proof (find_entry cfg (if meta then str "metadata.mime-types" else str "resource.mime-types") m) as H.
  destruct (Config_Find _ _ _) as [a|].
  - split; [|auto]. intros _. destruct H as (sc & e1 & e & e2 & F & E & M & _). exists sc, e. split; [auto|]. split; [rewrite E; apply in_elt|auto].
  - split; [discriminate|]. intros (sc & e & F & I & M). exfalso. eapply H; eauto.
Qed.

Lemma read_delivers l : exists e, delivers l (read_all l) e.
Proof.
  induction l as [|[d|] l IH]; cbn [read_all].
  - exists []. split; [auto|]. split; auto.
  - destruct d as [|x d].
    + eexists. split; [reflexivity|]. split; [auto|]. right. eauto.
    + destruct IH as (e & E & N & T). exists e. split; [rewrite E at 1; reflexivity|]. split; [|auto]. intros [H|H]; [discriminate|auto].
  - eexists. split; [reflexivity|]. split; [auto|]. right. eauto.
Qed.
Lemma delivers_read l ds e : delivers l ds e -> read_all l = ds.
Proof.
  intros (-> & N & T). induction ds as [|d ds IH].
  - cbn. destruct T as [->|(r & [->| ->])]; auto.
  - cbn [map app read_all]. destruct d as [|x d]; [exfalso; apply N; left; auto|]. rewrite IH; [auto|]. intros H. apply N. right. auto.
Qed.
Lemma delivers_same l ds e ds' e' : delivers l ds e -> delivers l ds' e' -> ds = ds' /\ e = e'.
Proof.
  intros H H'. assert (ds = ds') by (rewrite <- (delivers_read _ _ _ H), <- (delivers_read _ _ _ H'); auto). subst. split; [auto|].
  destruct H as (-> & _), H' as (E & _). apply app_inv_head in E. auto.
Qed.

Section Store.
Variables (C : conf) (L : zlib) (cfg : config) (input : option bytes -> option (list rd)).
Hypothesis CO : conf_ok C.

Definition opened (ops : list bytes) : option (list rd) :=
  match ops with
  | [] => input None
  | [f] => if bytes_eqb f (str "-") then input None else input (Some f)
  | _ => None
  end.
Lemma opened_spec ops l : opened ops = Some l <-> exists f, operand ops f /\ input f = Some l.
Proof.
  unfold opened. destruct ops as [|f [|]].
  - split; [intros H; exists None; split; [constructor|auto]|]. intros (f & O & H). inversion O; subst; auto.
  - destruct (bytes_eqb f (str "-")) eqn:B.
    + apply bytes_eqb_true in B. subst f. split; [intros H; exists None; split; [constructor|auto]|]. intros (f & O & H). inversion O; subst; auto. contradiction.
    + assert (N : f <> str "-") by (intros ->; rewrite bytes_eqb_refl in B; discriminate).
      split; [intros H; exists (Some f); split; [constructor; auto|auto]|]. intros (g & O & H). inversion O; subst; auto. contradiction.
  - split; [discriminate|]. intros (f' & O & _). inversion O.
Qed.

Definition main_ok (r : request) : Prop :=
  (r_meta r = true -> exists nid, good_id (c_prefix C) (c_idsize C) (r_ref r) nid) /\
  (forall i, r_ident r = Some i -> r_meta r = true /\ exists nid, good_id (c_prefix C) (c_idsize C) i nid) /\ r_data r <> [].

Lemma valid_good i : valid_id C i = true <-> exists nid, good_id (c_prefix C) (c_idsize C) i nid.
Proof.
  unfold valid_id. split.
  - destruct (IDX_Valid_Id _ _ i) eqn:V; try discriminate. intros _. eexists. apply valid_iff; eauto.
  - intros (nid & G). apply valid_iff in G; auto. rewrite G. auto.
Qed.

Definition ref_part (r : request) : prog (option bytes) :=
  if r_meta r then
      let! _ := match r_ident r with
                | Some i => if valid_id C i then Ret tt else Die DExit
                | None => Ret tt
                end in
      if negb (valid_id C (r_ref r)) then Die DExit
      else if len (r_ref r) =? c_idsize C
      then let! x := lift (Digest2Ident (c_prefix C) (c_idsize C) (r_ref r)) in Ret (Some x)
      else Ret (Some (r_ref r))
    else match r_ident r with Some _ => Die DExit | None => Ret None end.

Lemma ref_result r : 
  if (if r_meta r then valid_id C (r_ref r) && match r_ident r with Some i => valid_id C i | None => true end else match r_ident r with Some _ => false | None => true end)
  then ref_part r = Ret (if r_meta r then Some (full_ref C r) else None) else ref_part r = Die DExit.
Proof.
  unfold ref_part, full_ref. destruct (r_meta r); [|destruct (r_ident r); auto].
  destruct (valid_id C (r_ref r)) eqn:VR; cbn [andb negb]; destruct (r_ident r) as [i|]; try destruct (valid_id C i); cbn [bindp]; auto.
  all: destruct (len (r_ref r) =? c_idsize C) eqn:LN; [|auto].
  all: apply valid_good in VR; destruct VR as (nid & W1 & W2 & W3); assert (E : r_ref r = nid) by
      (destruct W3 as [|(p & W3 & W4)]; [auto|]; rewrite W4, len_app in LN; assert (len p = 0) by lia; destruct p; [auto|rewrite len_cons in *; lia]).
  all: rewrite E, (good_d2i C CO) by auto; reflexivity.
Qed.

Lemma main_refuses r s : ~ main_ok r -> run (main_store C L r) s = (s, inr DExit).
Proof.
  intros N. unfold main_store, store_feed. fold (ref_part r). rewrite run_bind, run_bind. pose proof (ref_result r) as X.
  destruct (if r_meta r then _ else _) eqn:V in X; rewrite X; cbn [run]; [|auto].
  destruct (r_data r) eqn:D; [auto|]. exfalso. apply N. split; [|split; [|rewrite D; discriminate]].
  - intros M. rewrite M in V. apply andb_true_iff in V. apply valid_good. tauto.
  - intros i E. rewrite E in V. destruct (r_meta r); [|discriminate]. split; [auto|]. apply andb_true_iff in V. apply valid_good. tauto.
Qed.

Lemma store_opts_ev : forall l o o', store_opts o l = Some o' -> exists os, l = map ev os.
Proof.
  induction l as [|e l IH]; intros o o' H; [exists []; auto|]. cbn [store_opts] in H. destruct (store_opt o e) as [o1|] eqn:E; [|discriminate].
  destruct (IH _ _ H) as (os & ->). destruct e as [c v|]; [|discriminate]. exists ((c, v) :: os). auto.
Qed.

Definition asked (o : sopts) (ds : list bytes) : request :=
  mkReq (match so_t o with Some b => b | None => false end) (so_m o) (match so_r o with Some v => v | None => [] end) (so_i o) ds.

Lemma accepted os ops args r : written store_vals store_flags os ops args -> asks C cfg input os ops r -> store_cmd C L cfg input args = main_store C L r.
Proof.
  intros W A. unfold store_cmd. pose proof (written_wf _ _ _ _ _ W) as WF. apply store_getopt in W. rewrite W.
  destruct A as [A1 A2 A3 A4 A5 A6 A7]. destruct r as [meta mime ref ident data]. cbn [r_meta r_mime r_ref r_ident r_data] in *.
  assert (S : exists t, store_opts (mkSO None (str "application/octet-stream") None None) (map ev os) =
     Some (mkSO t mime (if meta then Some ref else None) ident) /\ match t with Some b => b | None => false end = meta).
  { destruct A2 as [(T & ->)|(v & T & TY)].
    - exists None. split; [|auto]. apply opts_spec; [auto|]. unfold opts_sp. cbn [so_t so_m so_r so_i]. split; [auto|]. split; [left; auto|]. split; [auto|].
      split; [left; destruct A5; auto|]. destruct A6 as ([(I & ->)|(i & I & ->)] & _); [left; auto|right; eauto].
    - exists (Some meta). split; [|auto]. apply opts_spec; [auto|]. unfold opts_sp. cbn [so_t so_m so_r so_i]. split; [auto|].
      split; [right; exists v, meta; split; [auto|]; split; [auto|]; unfold typed; tauto|]. split; [auto|].
      split. { destruct meta; [right; destruct A5; eauto|left; destruct A5; auto]. }
      destruct A6 as ([(I & ->)|(i & I & ->)] & _); [left; auto|right; eauto]. }
  destruct S as (t & S & ST). rewrite S. cbv zeta. cbn [so_t so_m so_r so_i]. rewrite ST.
  destruct A7 as (ND & f & l & e & OP & IN & DE & EN). fold (opened ops). assert (O : opened ops = Some l) by (apply opened_spec; eauto).
  fold (opened ops). rewrite O. apply mime_spec in A4. rewrite A4. cbn [negb]. rewrite (delivers_read _ _ _ DE).
  destruct meta; cbn [negb andb orb].
  - auto.
  - destruct A5 as (_ & ->). destruct ident as [i|]; [|auto]. destruct A6 as (_ & A6). destruct (A6 i eq_refl). discriminate.
Qed.

Lemma accepted_run os ops args r : written store_vals store_flags os ops args -> asks C cfg input os ops r ->
  forall s, run (store_cmd C L cfg input args) s = run (main_store C L r) s.
Proof. intros W A s. rewrite (accepted os ops args r W A). auto. Qed.

Lemma refused args s : (forall f l, input f = Some l -> ~ breaks_off l) ->
  (forall os ops r, written store_vals store_flags os ops args -> ~ asks C cfg input os ops r) ->
  run (store_cmd C L cfg input args) s = (s, inr DExit).
Proof.
  intros NB NA. unfold store_cmd. destruct (getopt "hi:m:t:r:" args) as [evs ops] eqn:G.
  destruct (store_opts _ evs) as [o|] eqn:S; [|auto]. destruct (store_opts_ev _ _ _ S) as (os & ->). apply store_getopt in G.
  pose proof (written_wf _ _ _ _ _ G) as WF. apply opts_spec in S; [|auto]. specialize (NA os ops).
  set (meta := match so_t o with Some b => b | None => false end).
  destruct (andb (negb meta) _) eqn:X1; [auto|]. destruct (andb meta _) eqn:X2; [auto|]. fold (opened ops).
  destruct (opened ops) as [l|] eqn:O; [|auto]. apply opened_spec in O. destruct O as (f & OP & IN).
  destruct (mime_type cfg meta (so_m o)) eqn:MT; cbn [negb]; [|auto]. apply mime_spec in MT.
  apply main_refuses. intros (M1 & M2 & M3). cbn [r_meta r_ref r_ident r_data] in *. apply (NA (asked o (read_all l)) G). clear NA.
  destruct (read_delivers l) as (e & DE).
  destruct S as (S1 & S2 & S3 & S4 & S5). cbn [so_t so_m so_r so_i] in *.
  apply (Build_asks C cfg input os ops (asked o (read_all l))); unfold asked; cbn [r_meta r_mime r_ref r_ident r_data]; fold meta; auto.
  - unfold meta. destruct S2 as [(S2 & ->)|(v & b & S2 & -> & TY)]; [left; auto|right]. exists v. split; auto.
  - unfold keeps in S4. destruct meta.
    + destruct S4 as [(_ & E)|(v & b & S4 & E & <-)]; rewrite E in *; [discriminate|]. auto.
    + destruct S4 as [(S4 & E)|(v & b & S4 & E & <-)]; rewrite E in *; [auto|]. discriminate.
  - split; [|auto]. destruct S5 as [(S5 & ->)|(v & b & S5 & -> & <-)]; [left; auto|right; eauto].
  - split; [auto|]. exists f, l, e. repeat (split; [assumption|]). unfold ends. destruct e as [|[|] r]; auto.
    apply (NB _ _ IN). exists (read_all l), r. auto.
Qed.
End Store.

(* main.c *)
Definition main_sp (os : list (N * option bytes)) (cf : option bytes) (json : bool) (cf' : option bytes) (json' : bool) : Prop :=
  ~ In (o_h, None) os /\ cf' = match rev (given o_c os) with v :: _ => Some v | [] => cf end /\
  (json' = true <-> json = true \/ In (o_j, None) os).

Lemma rev_first (v : bytes) l (cf : option bytes) :
  match rev (v :: l) with x :: _ => Some x | [] => cf end = match rev l with x :: _ => Some x | [] => Some v end.
Proof. cbn [rev]. destruct (rev l); auto. Qed.

Lemma main_opts_spec : forall os cf json cf' json',
  Forall (fun o => match snd o with Some _ => In (fst o) main_vals | None => In (fst o) main_flags end) os ->
  (main_opts cf json (map ev os) = Some (cf', json') <-> main_sp os cf json cf' json').
Proof.
  induction os as [|[c v] os IH]; intros cf json cf' json' WF; unfold main_sp.
  - cbn. split; [intros E; injection E as <- <-; intuition|]. intros (_ & -> & H). f_equal. f_equal. destruct json, json'; intuition congruence.
  - inversion_clear WF as [|? ? W WF']. cbn [fst snd] in W. cbn [map]. unfold ev at 1. cbn [fst snd]. destruct v as [v|].
    + destruct W as [<-|[]]. change (main_opts cf json (OOpt o_c (Some v) :: map ev os)) with (main_opts (Some v) json (map ev os)). rewrite IH by auto. unfold main_sp.
      assert (HG : given o_c ((o_c, Some v) :: os) = v :: given o_c os) by reflexivity. rewrite HG, rev_first.
      assert (H1 : In (o_h, None) ((o_c, Some v) :: os) <-> In (o_h, None) os) by (cbn; intuition congruence).
      assert (H2 : In (o_j, None) ((o_c, Some v) :: os) <-> In (o_j, None) os) by (cbn; intuition congruence). rewrite H1, H2. reflexivity.
    + destruct W as [<-|[<-|[]]].
      * unfold o_h at 1. cbn [main_opts]. split; [discriminate|]. intros (H & _). exfalso. apply H. left. auto.
      * unfold o_j at 1. cbn [main_opts]. rewrite IH by auto. unfold main_sp. change (given o_c ((o_j, None) :: os)) with (given o_c os).
        assert (H1 : In (o_h, None) ((o_j, None) :: os) <-> In (o_h, None) os) by (cbn; unfold o_h, o_j; intuition congruence).
        rewrite H1. split; intros (A & B & D); (split; [auto|]); (split; [auto|]); cbn in *; tauto.
Qed.
Lemma main_opts_ev : forall l cf json x, main_opts cf json l = Some x -> exists os, l = map ev os.
Proof.
  induction l as [|e l IH]; intros cf json x H; [exists []; auto|]. destruct e as [c v|]; [|discriminate].
  assert (exists os, l = map ev os) as (os & ->).
  { cbn [main_opts] in H. repeat match type of H with context [match ?a with _ => _ end] => destruct a; try discriminate end; eauto. }
  exists ((c, v) :: os). auto.
Qed.

Lemma call_main_spec aa json name args aa' c json' args' : call_main aa json name args = MRun aa' c json' args' <->
  aa' = aa /\ json' = json /\ args' = args /\ name = names_of c /\ (json = true -> c = CInfo).
Proof.
  unfold call_main. split.
  - destruct (find _ mains) as [[[n c0] j]|] eqn:F; [|discriminate]. apply find_some in F. cbn [fst] in F. destruct F as (I & B). apply bytes_eqb_true in B. subst n.
    destruct (json && negb j) eqn:J; [discriminate|]. intros E. injection E as <- <- <- <-. repeat (split; [reflexivity|]).
    cbn in I. repeat destruct I as [I|I]; try contradiction; injection I as <- <- <-; (split; [reflexivity|]); destruct json; auto; discriminate.
  - intros (-> & -> & -> & -> & J).
    assert (F : find (fun m => bytes_eqb (fst (fst m)) (names_of c)) mains = Some (names_of c, c, match c with CInfo => true | _ => false end)) by (destruct c; reflexivity).
    rewrite F. destruct json; [rewrite (J eq_refl)|]; reflexivity.
Qed.

Section Main.
Variables (strtoul : bytes -> N) (vnum : bytes -> option N) (fmt : bytes -> bool) (files : bytes -> option bytes) (home : option bytes) (bufsiz : N).
Let ld := load strtoul vnum fmt files.

Lemma first_of (fs : list bytes) aa : (exists a f b, fs = a ++ f :: b /\ ld f = Some aa /\ forall g, In g a -> ld g = None) <->
  fold_left (or_load strtoul vnum fmt files) fs None = Some aa.
Proof.
  assert (K : forall l a, fold_left (or_load strtoul vnum fmt files) l (Some a) = Some a) by (induction l; cbn; auto).
  induction fs as [|f fs IH]; cbn [fold_left].
  - split; [intros (a & f & b & H & _); destruct a; discriminate|discriminate].
  - cbn [or_load]. fold (ld f). destruct (ld f) as [a0|] eqn:E.
    + rewrite K. split.
      * intros ([|x a] & g & b & H & G & N); injection H as <- H; [congruence|]. rewrite N in E by (left; auto). discriminate.
      * intros H. exists [], f, fs. split; [auto|]. split; [congruence|]. intros g [].
    + rewrite <- IH. split.
      * intros ([|x a] & g & b & H & G & N); injection H as <- H; [congruence|]. exists a, g, b. split; [auto|]. split; [auto|]. intros h Hh. apply N. right. auto.
      * intros (a & g & b & -> & G & N). exists (f :: a), g, b. split; [auto|]. split; [auto|]. intros h [<-|Hh]; auto.
Qed.

Lemma main_runs args aa c json rest : main strtoul vnum fmt files home bufsiz args = MRun aa c json rest <->
  exists os, written main_vals main_flags os (names_of c :: rest) args /\ ~ In (o_h, None) os /\ (json = true <-> In (o_j, None) os) /\
    uses ld home (given o_c os) aa /\ (json = true -> c = CInfo) /\
    (given o_c os = [] -> forall h, home = Some h -> len (h ++ str "/.aardwarc.conf") < bufsiz).
Proof.
  unfold main, uses. split.
  - destruct (getopt "c:hj" args) as [evs ops] eqn:G. destruct (main_opts None false evs) as [[cf js]|] eqn:M; [|discriminate].
    destruct (main_opts_ev _ _ _ _ M) as (os & ->). apply main_getopt in G. pose proof (written_wf _ _ _ _ _ G) as WF.
    apply main_opts_spec in M; [|auto]. destruct M as (M1 & M2 & M3). destruct ops as [|name ops]; [discriminate|]. intros H. exists os.
    destruct (rev (given o_c os)) as [|f rv] eqn:R; subst cf.
    + assert (GC : given o_c os = []) by (rewrite <- (rev_involutive (given o_c os)), R; auto).
      destruct home as [h|].
      * destruct (bufsiz <=? _) eqn:B in H; [discriminate|].
        destruct (or_load _ _ _ _ _ _) as [a0|] eqn:O in H; [|discriminate].
        apply call_main_spec in H. destruct H as (-> & -> & -> & -> & J). split; [auto|]. split; [auto|]. split; [intuition congruence|]. split.
        { apply (first_of (candidates (Some h))). exact O. } split; [auto|]. intros _ h' E. injection E as <-. lia.
      * destruct (or_load _ _ _ _ _ _) as [a0|] eqn:O in H; [|discriminate].
        apply call_main_spec in H. destruct H as (-> & -> & -> & -> & J). split; [auto|]. split; [auto|]. split; [intuition congruence|]. split.
        { apply (first_of (candidates None)). exact O. } split; [auto|]. intros _ h' E. discriminate.
    + fold (ld f) in H. destruct (ld f) as [a0|] eqn:E; [|discriminate]. apply call_main_spec in H. destruct H as (-> & -> & -> & -> & J).
      split; [auto|]. split; [auto|]. split; [intuition congruence|]. split; [auto|]. split; [auto|].
      intros X. rewrite X in R. discriminate.
  - intros (os & W & NH & JS & U & J & BZ). pose proof (written_wf _ _ _ _ _ W) as WF. apply main_getopt in W. rewrite W.
    assert (M : main_opts None false (map ev os) = Some (match rev (given o_c os) with v :: _ => Some v | [] => None end, json)).
    { apply main_opts_spec; [auto|]. split; [auto|]. split; [auto|]. intuition congruence. }
    rewrite M. destruct (rev (given o_c os)) as [|f rv] eqn:R.
    + assert (GC : given o_c os = []) by (rewrite <- (rev_involutive (given o_c os)), R; auto). specialize (BZ GC).
      apply first_of in U. destruct home as [h|].
      * cbv zeta. specialize (BZ h eq_refl). destruct (bufsiz <=? _) eqn:B; [lia|]. cbn [candidates app fold_left] in U. match type of U with context [or_load _ _ _ _ None ?f] => change (or_load strtoul vnum fmt files None f) with (load strtoul vnum fmt files f) in U end. rewrite U.
        apply call_main_spec. auto.
      * cbv zeta. cbn [candidates app fold_left] in U. rewrite U. apply call_main_spec. auto.
    + fold (ld f). rewrite U. apply call_main_spec. auto.
Qed.
End Main.
