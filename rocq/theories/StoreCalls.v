(* Which calls a program makes, whatever the answers; and programs which also
   return the index entries they have inserted. *)
From Coq Require Import String Permutation.
From Coq Require Import ZifyBool ZifyNat ZifyN.
From Verif Require Import Base BaseLemmas ListLemmas IndexModel IndexSpec HeaderModel GzipModel ProgModel StoreModel StoreSpec StoreSysModel StoreWp.
Open Scope string_scope.
Open Scope list_scope.
Open Scope N_scope.

(** * All calls of a program *)

Fixpoint allcalls {A} (P : call -> Prop) (p : prog A) : Prop :=
  match p with
  | Ret _ | Die _ => True
  | Call c k => P c /\ forall a, allcalls P (k a)
  end.

Section Calls.
Variable P : call -> Prop.
Lemma ac_bind {A B} (p : prog A) (f : A -> prog B) : allcalls P p -> (forall a, allcalls P (f a)) -> allcalls P (bindp p f).
Proof. induction p as [a|d|c k IH]; cbn [allcalls bindp]; intros H HF; auto. split; [apply H|]. intros a. apply IH; auto. apply H. Qed.
Lemma ac_lift {A} (r : res A) : allcalls P (lift r).
Proof. destruct r; exact I. Qed.
Lemma ac_assert b : allcalls P (assert b).
Proof. destruct b; exact I. Qed.
Lemma ac_sys c : P c -> allcalls P (sys c).
Proof. cbn. auto. Qed.
Lemma ac_run {A} (p : prog A) (R : fs -> Prop) : allcalls P p -> (forall c s, P c -> R s -> R (fst (exec c s))) -> forall s, R s -> R (fst (run p s)).
Proof.
  intros H HR. revert H. induction p as [a|d|c k IH]; intros H s Hs; cbn [run allcalls] in *; auto.
  destruct (exec c s) as [s' a] eqn:E. apply IH; [apply H|]. change s' with (fst (s', a)). rewrite <- E. apply HR; [apply H|auto].
Qed.
End Calls.

Ltac ac := repeat (cbv zeta; first [ match goal with |- forall _, _ => intro end | exact I | assumption | apply ac_lift | apply ac_assert | (apply ac_sys; exact I) | (apply ac_sys; reflexivity)
  | (apply ac_bind; [|intro]) | match goal with |- allcalls _ (match ?x with _ => _ end) => destruct x end | progress auto ]).

Lemma ac_weak (P Q : call -> Prop) {A} (p : prog A) : (forall c, P c -> Q c) -> allcalls P p -> allcalls Q p.
Proof. intros H. induction p as [a|d|c k IH]; cbn [allcalls]; auto. intros (H1 & H2). split; auto. Qed.

Section CallsOf.
Variable C : conf.
Variable L : zlib.

Notation readonly := only_looks.

Lemma iter_ro id segs es : allcalls readonly (iter_loop C id segs es).
Proof. induction es as [|e r IH]; cbn [iter_loop]; [exact I|]. unfold getjob_iter. ac. Qed.
Lemma loop_ro id : forall fuel segs nid, allcalls readonly (getjob_loop C fuel id segs nid).
Proof.
  induction fuel as [|fu IH]; intros; cbn [getjob_loop]; [exact I|]. apply ac_bind; [apply ac_sys; reflexivity|]. intros es.
  apply ac_bind; [apply iter_ro|]. ac.
Qed.
Lemma getjob_ro id : allcalls readonly (GetJob_New C id).
Proof. unfold GetJob_New. destruct (IDX_Valid_Id _ _ _); try exact I. apply loop_ro. Qed.
Lemma iter_body_ro segs : allcalls readonly (GetJob_Iter segs).
Proof. induction segs; cbn [GetJob_Iter]; [exact I|]. ac. Qed.
Lemma gz_pieces_ro segs : allcalls readonly (gz_pieces segs).
Proof. induction segs; cbn [gz_pieces]; [exact I|]. ac. Qed.
Lemma get_body_ro z segs : allcalls readonly (get_body C L z segs).
Proof.
  unfold get_body. destruct z.
  - unfold GetJob_Iter_gz. apply ac_bind; [apply gz_pieces_ro|]. ac.
  - cbv zeta. apply ac_bind; [apply iter_body_ro|]. ac.
Qed.
Lemma main_get_ro z arg : allcalls readonly (main_get C L z arg).
Proof.
  unfold main_get. apply ac_bind; [apply getjob_ro|]. intros [segs|]; [|exact I]. apply ac_bind; [apply get_body_ro|]. ac.
Qed.

Lemma ro_harmless c : readonly c -> harmless c.
Proof. destruct c; cbn; auto; discriminate. Qed.
Lemma getjob_hl id : allcalls harmless (GetJob_New C id).
Proof. eapply ac_weak; [exact ro_harmless|]. apply getjob_ro. Qed.

Lemma hset_hl h n v : allcalls harmless (hset h n v).
Proof. apply ac_lift. Qed.
Lemma hser_hl l h : allcalls harmless (hser C L l h).
Proof. apply ac_lift. Qed.
Lemma store_hl sl d : allcalls harmless (Wsilo_Store sl d).
Proof. unfold Wsilo_Store. ac. Qed.
Lemma put_hl sl d : allcalls harmless (put C sl d).
Proof. unfold put. apply ac_bind; [ac|]. intros _. apply ac_bind; [ac|]. intros _. apply store_hl. Qed.
Hint Resolve hset_hl hser_hl store_hl put_hl getjob_hl : ac.
Ltac acx := repeat (cbv zeta; first [ match goal with |- forall _, _ => intro end | exact I | assumption | solve [eauto with ac nocore] | apply ac_lift | apply ac_assert | (apply ac_sys; exact I)
  | (apply ac_bind; [|intro]) | match goal with |- allcalls _ (match ?x with _ => _ end) => destruct x end ]).
Lemma winfo_hl sl n : allcalls harmless (Warcinfo_New C L sl n).
Proof. unfold Warcinfo_New. acx. Qed.
Lemma wnew_hl n : allcalls harmless (Wsilo_New C L n).
Proof. unfold Wsilo_New. pose proof winfo_hl. acx. Qed.
Lemma next_hl fuel : forall n, allcalls harmless (next_loop C L fuel n).
Proof. pose proof wnew_hl. induction fuel; intros; cbn [next_loop]; acx. Qed.
Lemma wnext_hl aa : allcalls harmless (Wsilo_Next C L aa).
Proof. unfold Wsilo_Next, ReadCache. pose proof next_hl. acx. Qed.
Lemma header_hl sl hd pad : allcalls harmless (Wsilo_Header C L sl hd pad).
Proof. unfold Wsilo_Header. acx. Qed.
Lemma newseg_hl aa sj : allcalls harmless (segjob_newseg C L aa sj).
Proof. unfold segjob_newseg. pose proof wnext_hl. pose proof header_hl. acx. Qed.
Lemma finish_hl sj sg : allcalls harmless (segjob_finishseg C L sj sg).
Proof. unfold segjob_finishseg, Wsilo_Finish. acx. Qed.
Lemma outbuf_hl sg : allcalls harmless (segjob_setup_outbuf C sg).
Proof. unfold segjob_setup_outbuf. acx. Qed.
Lemma deflate_hl sj sg o f : allcalls harmless (segjob_deflate L sj sg o f).
Proof. unfold segjob_deflate. acx. Qed.
Lemma feed_hl fuel : forall aa sj ip, allcalls harmless (feed_loop C L fuel aa sj ip).
Proof.
  pose proof newseg_hl. pose proof finish_hl. pose proof outbuf_hl. pose proof deflate_hl.
  induction fuel as [|fu IH]; intros; cbn [feed_loop]; acx.
Qed.
Lemma feed_all_hl ds : forall aa sj, allcalls harmless (feed_all C L aa sj ds).
Proof. pose proof feed_hl. induction ds; intros; cbn [feed_all]; unfold SegJob_Feed; acx. Qed.
Lemma ident_hl aa sj : allcalls harmless (segjob_ident C L aa sj).
Proof. unfold segjob_ident, SegJob_Feed. pose proof feed_hl. acx. Qed.
Lemma store_feed_hl r : allcalls harmless (store_feed C L r).
Proof. unfold store_feed. pose proof feed_all_hl. unfold SegJob_New. acx. Qed.
Lemma destroy_hl sgs : allcalls harmless (segjob_destroy sgs).
Proof. induction sgs; cbn [segjob_destroy]; unfold wsilo_delete; acx. Qed.

End CallsOf.

(** * Entries inserted *)

Definition ins_of (c : call) : list ixent := match c with CIdxIns e => [e] | _ => [] end.

Fixpoint tr {A} (l : list ixent) (p : prog A) : prog (A * list ixent) :=
  match p with
  | Ret a => Ret (a, l)
  | Die d => Die d
  | Call c k => Call c (fun a => tr (l ++ ins_of c) (k a))
  end.

(* not for a warcinfo record and not for a second or later segment *)
Definition first_ent (e : ixent) : Prop :=
  flag (e_flags e) IDX_F_WARCINFO = false /\ flag (e_flags e) IDX_F_SEGMENTED && negb (flag (e_flags e) IDX_F_FIRSTSEG) = false.

Section Tr.
Variable inv : fs -> Prop.
Variable D : death -> Prop.
Notation wpi := (wp inv D).

Lemma tr_bind {A B} (Q : B * list ixent -> list N -> fs -> Prop) (p : prog A) (f : A -> prog B) : forall own s l,
  wpi (fun x o s' => wpi Q o s' (tr (snd x) (f (fst x)))) own s (tr l p) -> wpi Q own s (tr l (bindp p f)).
Proof.
  induction p as [a|d|c k IH]; intros own s l W; cbn [tr bindp wp] in *; auto.
  intros s1 R J. destruct (W s1 R J) as (A1 & A2 & A3 & A4). split; [auto|]. split; [auto|]. split; [auto|]. apply IH. exact A4.
Qed.

Lemma tr_all {A} (P : ixent -> Prop) (R : A -> list N -> fs -> Prop) (p : prog A) : forall own s l,
  wpi R own s p -> allcalls (fun c => Forall P (ins_of c)) p -> Forall P l ->
  wpi (fun x o s' => R (fst x) o s' /\ Forall P (snd x)) own s (tr l p).
Proof.
  induction p as [a|d|c k IH]; intros own s l W AC F; cbn [tr wp allcalls fst snd] in *; auto.
  intros s1 R1 J. destruct (W s1 R1 J) as (A1 & A2 & A3 & A4). split; [auto|]. split; [auto|]. split; [auto|]. apply IH; [exact A4|apply AC|].
  apply Forall_app. split; [auto|apply AC].
Qed.

Lemma hl_ins c : harmless c -> ins_of c = [].
Proof. destruct c; cbn; tauto. Qed.

Lemma tr_none {A} (R : A -> list N -> fs -> Prop) (p : prog A) : forall own s l,
  wpi R own s p -> allcalls harmless p ->
  wpi (fun x o s' => R (fst x) o s' /\ snd x = l) own s (tr l p).
Proof.
  induction p as [a|d|c k IH]; intros own s l W AC; cbn [tr wp allcalls fst snd] in *; auto.
  intros s1 R1 J. destruct (W s1 R1 J) as (A1 & A2 & A3 & A4). split; [auto|]. split; [auto|]. split; [auto|].
  rewrite (hl_ins c) by apply AC. rewrite app_nil_r. apply IH; [exact A4|apply AC].
Qed.

Lemma tr_seq {A B} (Q : B * list ixent -> list N -> fs -> Prop) (R : A -> list N -> fs -> Prop) (p : prog A) (f : A -> prog B) own s l :
  wpi R own s p -> allcalls harmless p -> (forall a o s', R a o s' -> wpi Q o s' (tr l (f a))) -> wpi Q own s (tr l (bindp p f)).
Proof.
  intros W AC H. apply tr_bind. eapply wp_conseq; [|apply tr_none; [exact W|exact AC]]. cbn beta. intros [a l'] o s' (H1 & H2). cbn [fst snd] in *. subst l'. auto.
Qed.

Lemma tr_off {A} (Q : A * list ixent -> list N -> fs -> Prop) (p : prog A) : forall own s l,
  wpi Q own s (tr l p) -> wpi (fun a o s' => exists l', Q (a, l') o s') own s p.
Proof.
  induction p as [a|d|c k IH]; intros own s l W; cbn [tr wp] in *; eauto.
  intros s1 R1 J. destruct (W s1 R1 J) as (A1 & A2 & A3 & A4). split; [auto|]. split; [auto|]. split; [auto|]. eapply IH. exact A4.
Qed.
End Tr.
