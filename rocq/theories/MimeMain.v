(* Proofs about the list of MIME types. *)
From Coq Require Import String.
From Verif Require Import Base BaseLemmas ConfigModel ConfigSpec ConfigProofs CmdModel MimeModel MimeSpec.
Open Scope string_scope.
Open Scope list_scope.
Open Scope N_scope.

Lemma lists_unique t a : lists t a -> forall b, lists t b -> a = b.
Proof.
  induction 1 as [|n r names N L IH]; intros b B; [inversion B; reflexivity|].
  inversion B as [|m r' names' M L' [E] E0]. subst b.
  assert (X : n = m /\ r = r').
  { clear - N M E. revert m M E. induction n as [|c n IH]; intros [|d m] M E; cbn [app] in E.
    - injection E as ->. auto.
    - injection E as E1 _. exfalso. apply M. left. congruence.
    - injection E as E1 _. exfalso. apply N. left. congruence.
    - injection E as -> E. destruct (IH (fun H => N (or_intror H)) m (fun H => M (or_intror H)) E) as [-> ->]. auto. }
  destruct X as [-> ->]. f_equal. apply IH. auto.
Qed.
Lemma printed : forall l out, iter_entries mime_print out l = (out ++ concat (map (fun e => 9 :: e_name e ++ [10]) l), 0%Z).
Proof.
  induction l as [|e l IH]; intros out; cbn [iter_entries map concat]; [rewrite app_nil_r; reflexivity|].
  unfold mime_print at 1. cbn [Z.eqb]. rewrite IH. f_equal. rewrite <- !app_assoc. f_equal. change (9 :: e_name e ++ [10]) with ([9] ++ e_name e ++ [10]). rewrite <- !app_assoc. reflexivity.
Qed.
Definition lines (cfg : config) : Prop := forall sc e, In sc cfg -> In e (s_entries sc) -> ~ In 10 (e_name e).
Lemma all_listed l : (forall e, In e l -> ~ In 10 (e_name e)) -> lists (concat (map (fun e => 9 :: e_name e ++ [10]) l)) (map e_name l).
Proof.
  induction l as [|e l IH]; intros H; cbn [map concat]; [constructor|]. cbn [app]. rewrite <- app_assoc. cbn [app].
  constructor; [apply H; left; auto|apply IH; intros x X; apply H; right; auto].
Qed.
Lemma said_same cfg meta mt : fst (mime_said cfg meta mt) = negb (mime_type cfg meta mt).
Proof. unfold mime_said, mime_type. destruct (Config_Find _ _ _); reflexivity. Qed.
Lemma said_nothing cfg meta mt : mime_type cfg meta mt = true -> mime_said cfg meta mt = (false, []).
Proof. unfold mime_said, mime_type. destruct (Config_Find _ _ _); [reflexivity|discriminate]. Qed.
Lemma said_list cfg meta mt : lines cfg -> mime_type cfg meta mt = false ->
  exists rest names, mime_said cfg meta mt = (true, first_line (if meta then str "metadata" else str "resource") ++ rest) /\ lists rest names /\
    forall t, mime_type cfg meta t = true <-> exists n, In n names /\ lower n = lower t.
Proof.
  intros LN R. unfold mime_said, mime_type in *. set (g := if meta then str "metadata.mime-types" else str "resource.mime-types") in *.
  assert (F := find_entry cfg g mt). destruct (Config_Find cfg g mt) as [a|] eqn:E; [discriminate R|]. clear R.
  assert (S := find_section_first cfg g). unfold Config_Iter. destruct (find_section cfg g) as [sc|] eqn:FS.
  - specialize (F sc S). exists (concat (map (fun e => 9 :: e_name e ++ [10]) (s_entries sc))), (map e_name (s_entries sc)).
    split; [|split].
    + destruct (s_entries sc) as [|e l] eqn:ES; [cbn [map concat]; rewrite app_nil_r; reflexivity|].
      rewrite printed. reflexivity.
    + apply all_listed. intros e I. destruct S as (x & y & -> & _). apply (LN sc); [apply in_or_app; right; left; auto|auto].
    + intros t. assert (T := find_entry cfg g t). destruct (Config_Find cfg g t) as [a|].
      * split; [intros _|reflexivity]. destruct T as (sc' & e1 & e & e2 & S' & ES & M & _). rewrite (first_section_unique _ _ _ _ S' S) in ES.
        assert (I : In e (s_entries sc)) by (rewrite ES; apply in_or_app; right; left; auto).
        exists (e_name e). split; [apply in_map; auto|]. destruct M as [M|M]; [|congruence].
        exfalso. apply (F e I). left. auto.
      * split; [discriminate|]. intros (n & I & Q). apply in_map_iff in I. destruct I as (e & <- & I). exfalso. apply (T sc S e I). right. auto.
  - exists [], []. split; [rewrite app_nil_r; reflexivity|]. split; [constructor|]. intros t. unfold Config_Find. rewrite FS.
    split; [discriminate|]. intros (n & [] & _).
Qed.

(* names read from a file *)
Lemma word_no q : ~ In 10 (word q).
Proof. induction q as [|x q IH]; cbn [word]; [auto|]. destruct (is_space x) eqn:E; [auto|]. intros [->|I]; [discriminate E|auto]. Qed.
Lemma lines_add cfg e : lines cfg -> ~ In 10 (e_name e) -> lines (add_entry cfg e).
Proof.
  intros L N. induction cfg as [|sc cfg IH]; [auto|]. cbn [add_entry]. destruct cfg as [|sc' cfg].
  - intros x y [<-|[]] Y. cbn [s_entries] in Y. apply in_app_iff in Y. destruct Y as [Y|[<-|[]]]; [apply (L sc y); [left; auto|auto]|auto].
  - intros x y [<-|X] Y; [apply (L sc y); [left; auto|auto]|]. apply (IH (fun a b A B => L a b (or_intror A) B) x y X Y).
Qed.
Lemma lines_line cfg p cfg' : lines cfg -> parse_line cfg p = inl cfg' -> lines cfg'.
Proof.
  intros L. unfold parse_line. destruct (trim_end (cut_at 35 p)) as [|c r]; [intros [= <-]; auto|].
  destruct (negb (is_space c)).
  - destruct (bytes_eqb _ _); [|discriminate]. destruct (existsb _ _); [discriminate|]. intros [= <-]. intros x y X Y. apply in_app_iff in X.
    destruct X as [X|[<-|[]]]; [apply (L x y X Y)|destruct Y].
  - destruct cfg as [|sc cfg]; [discriminate|]. intros E. apply (f_equal (fun x => match x with inl y => y | inr _ => cfg' end)) in E. subst cfg'. apply lines_add; auto. cbn [parse_entry e_name]. apply word_no.
Qed.
Lemma lines_parse : forall f cfg p, lines cfg -> lines (fst (parse_cfg f cfg p)).
Proof.
  induction f as [|f IH]; intros cfg p L; cbn [parse_cfg]; [auto|]. destruct p as [|c p]; [auto|].
  destruct (parse_line cfg (cut_at 10 (c :: p))) as [cfg'|e] eqn:E; [|auto]. apply IH. eapply lines_line; eauto.
Qed.
Lemma lines_read content cfg : Config_Read content = Some cfg -> lines cfg.
Proof.
  unfold Config_Read. destruct (existsb _ _); [discriminate|]. intros [= <-]. apply lines_parse. intros x y [].
Qed.
Lemma refused_list content cfg meta mt : Config_Read content = Some cfg -> mime_type cfg meta mt = false ->
  exists rest names, mime_said cfg meta mt = (true, first_line (if meta then str "metadata" else str "resource") ++ rest) /\ lists rest names /\
    forall t, mime_type cfg meta t = true <-> exists n, In n names /\ lower n = lower t.
Proof. intros R. apply said_list. eapply lines_read; eauto. Qed.
Definition ex_conf : bytes := str "resource.mime-types:" ++ [10; 9] ++ str "text/plain" ++ [10; 9] ++ str "image/png x" ++ [10].
Lemma mime_case : exists cfg, Config_Read ex_conf = Some cfg /\ mime_type cfg false (str "text/html") = false /\ mime_type cfg false (str "IMAGE/PNG") = true /\
  mime_said cfg false (str "text/html") = (true, first_line (str "resource") ++ [9] ++ str "text/plain" ++ [10; 9] ++ str "image/png" ++ [10]).
Proof. eexists. split; [vm_compute; reflexivity|]. split; [|split]; vm_compute; reflexivity. Qed.
