(* mksilo keeps the archive in order. *)
From Coq Require Import String Permutation.
From Coq Require Import ZifyBool ZifyNat ZifyN.
From Verif Require Import Base BaseLemmas ListLemmas IndexModel IndexSpec HeaderModel HeaderSpec HeaderProofs
  InflateSpec InflateProofs GzipModel GzipSpec GzipProofs ProgModel StoreModel StoreSpec StoreSysModel StoreWp StoreSys StoreHdr
  StoreWrite StoreCommit StoreCalls.
Open Scope string_scope.
Open Scope list_scope.
Open Scope N_scope.

(* the silo of that number is there *)
Definition has_silo (C : conf) (L : zlib) (s : fs) (n : N) : Prop := exists w e, in_archive C L s n 0 w e /\
  has (wr_hdr w) "WARC-Type" (str "warcinfo") /\ has (wr_hdr w) "WARC-Filename" (c_base C n).

Lemma has_silo_rely C L own s s' n : rely own s s' -> has_silo C L s n -> has_silo C L s' n.
Proof. intros R (w & e & H & X). exists w, e. split; [|auto]. eapply in_archive_rely; eauto. Qed.

Section Mk.
Variable C : conf.
Variable L : zlib.
Hypothesis CO : conf_ok C.
Hypothesis ZO : zlib_ok L.
Variable D : death -> Prop.
Hypothesis DA : D DAbort.
Hypothesis DE : D DExit.
Hypothesis DU : D DUB.
Hypothesis DF : D DFuel.
Notation wpD := (wp (inv C L) D).

Lemma Wsilo_New_no s n : n < 2 ^ 32 - 1 ->
  wpD (fun x own s1 => match x with None => own = [] | Some sl => own = [n] /\ w_no sl = n /\ fresh C L s1 sl end) [] s (Wsilo_New C L n).
Proof.
  intros Hn. unfold Wsilo_New. apply wp_ro; auto. intros s1 _ _. cbn [exec snd].
  destruct (f_silo s1 n) as [[b w]|]; [cbn [wp]; auto|].
  apply wp_ro; auto. intros s2 _ _. cbn [exec snd]. destruct (f_hold s2 n); [cbn [wp]; auto|].
  apply wp_creat; [intros m []|cbn [negb wp]; auto|]. intros s3 _ _ M. cbn [negb].
  eapply wp_seq; [apply Warcinfo_New_ok; [auto ..|lia|exact M]|]. cbn beta. intros sl own s4 (-> & r & W & M4 & L4 & E).
  cbn [wp]. assert (En : w_no sl = n) by (rewrite E; auto). split; [congruence|]. split; [auto|]. exists r. rewrite En. auto.
Qed.

Lemma silo_ok_one n wr wid : winfo C L n wr wid -> silo_ok C L n wr [ideal wid 2 n 0 None].
Proof.
  intros Hw. destruct (winfo_entry _ _ _ _ _ Hw) as (w0 & H1 & H2 & H3 & H4).
  exists w0, [], [ideal wid 2 n 0 None]. split; [|split; [auto|split; [auto|split; [auto|split; [auto|]]]]].
  - rewrite <- (app_nil_r wr). constructor; auto. constructor.
  - constructor; auto.
Qed.

Lemma main_mksilo_ok s n : n < 2 ^ 32 - 1 -> wpD (fun _ own s' => own = [] /\ has_silo C L s' n) [] s (main_mksilo C L n).
Proof.
  intros Hn. unfold main_mksilo. eapply wp_seq; [apply Wsilo_New_no; auto|]. cbn beta. intros [sl|] own s1 H; [|cbn [wp]; auto].
  destruct H as (-> & E & r & W & M & LR & Es & _).
  assert (In1 : In n [n]) by (left; auto).
  eapply wp_seq with (R := fun _ o s' => o = [] /\ has_silo C L s' n); [|cbn beta; intros; cbn [wp]; auto].
  unfold Wsilo_Install, insert. rewrite E in *. set (e0 := ideal (w_wid sl) IDX_F_WARCINFO n 0 None).
  destruct (winfo_entry _ _ _ _ _ W) as (w0 & W1 & W2 & W3 & W4). change (ideal (w_wid sl) 2 n 0 None) with e0 in W4.
  eapply (wp_ins C L D); [exact In1|apply pend_mine; exact M|reflexivity| |].
  { exists [], r, [], w0. rewrite app_nil_r. auto. }
  rewrite rm_one. intros s3 Rl3 P3.
  eapply (wp_link C L D); [exact In1|exact P3|apply silo_ok_one; auto|auto|lia| |].
  { intros s5. cbn [assert bindp wp]. auto. }
  rewrite rm_one. intros s5 Rl5 M5 F5 IN. cbn [assert bindp].
  assert (IA : in_archive C L s5 n 0 w0 e0).
  { split; [apply IN; left; auto|]. split; [auto|]. exists r, true, [], r, []. rewrite app_nil_r. auto. }
  cbn [fst snd].
  apply wp_seq with (R := fun aa2 o s6 => o = [n] /\ mine C L s6 n r /\ rely [] s5 s6).
  { destruct (n =? 0) eqn:X; [|cbn [wp]; split; [auto|split; [auto|apply rely_refl]]].
    apply N.eqb_eq in X. change ((0 + 1) mod 2 ^ 32) with 1. eapply wp_seq; [apply (wp_wcache C L D [n] s5 (1, 0))|].
    - split; cbn [fst snd]; [lia|]. split; [lia|]. split.
      + intros m Hm. assert (m = n) by lia. subst m. congruence.
      + intros m Hm. lia.
    - cbn beta. intros _ o s6 (-> & Rl6 & K). cbn [wp]. split; [auto|]. split; [apply (mine_rely C L [n] s5 s6); auto|].
      eapply rely_nil; eauto. }
  cbn beta. intros aa o s6 (-> & M6 & Rl6). eapply in_archive_rely in IA; [|exact Rl6].
  unfold wsilo_delete. rewrite E. apply wp_unlink; [auto|apply M6|]. rewrite rm_one. intros s7 Rl7. cbn [wp].
  split; [auto|]. exists w0, e0. split; [eapply in_archive_rely; eauto|auto].
Qed.

Lemma main_mksilo_ins n : allcalls (fun c => Forall (fun e => ~ first_ent e /\ flag (e_flags e) IDX_F_SEGMENTED = false) (ins_of c)) (main_mksilo C L n).
Proof.
  unfold main_mksilo. apply ac_bind.
  - eapply ac_weak; [|apply wnew_hl]. intros c H. cbn beta. rewrite hl_ins; auto.
  - intros [sl|]; [|exact I]. apply ac_bind; [|intro; exact I].
    unfold Wsilo_Install, wsilo_delete, WriteCache, insert.
    apply ac_bind; [apply ac_sys; cbn [ins_of]; constructor; [|constructor]; split; [intros (F & _); discriminate|reflexivity]|intro].
    repeat first [ exact I | apply ac_assert | (apply ac_sys; exact (Forall_nil _))
      | (apply ac_bind; [|intro]) | match goal with |- allcalls _ (match ?x with _ => _ end) => destruct x end ].
Qed.
End Mk.
