(* Quoted texts can be read back. *)
From Coq Require Import String.
From Coq Require Import ZifyBool ZifyNat ZifyN.
From Verif Require Import Base BaseLemmas VsbModel VsbSpec VsbProofs QuoteModel QuoteSpec.
Open Scope string_scope.
Open Scope list_scope.
Open Scope N_scope.
Ltac Zify.zify_post_hook ::= Z.div_mod_to_equations.

(** * What the calls append *)
Definition op_data (o : vop) : bytes :=
  match o with VBcat d | VCat d | VPrintf d => d | VPutc c => [c] | _ => [] end.
Definition appends (o : vop) : bool := match o with VClear | VIndent _ => false | _ => true end.
Definition said (ops : list vop) : bytes := flat_map op_data ops.
Lemma put_none t c : put1 0 t c = t ++ [c].
Proof. unfold put1, pad. destruct (bol t); auto. Qed.
Lemma cat_none d : forall t, fold_left (put1 0) d t = t ++ d.
Proof. induction d as [|c d IH]; intros t; cbn [fold_left]; [rewrite app_nil_r; auto|]. rewrite IH, put_none, <- app_assoc. auto. Qed.
Lemma vtext_said ops : forallb appends ops = true -> forall t, fold_left vtext1 ops (t, 0) = (t ++ said ops, 0).
Proof.
  induction ops as [|o ops IH]; cbn [forallb fold_left said flat_map]; intros A t; [rewrite app_nil_r; auto|]. apply andb_prop in A. destruct A as [A1 A2].
  assert (E : vtext1 (t, 0) o = (t ++ op_data o, 0)).
  { assert (P : pad t 0 = []) by (unfold pad; destruct (bol t); auto). destruct o; try discriminate A1; cbn [vtext1 op_data].
    - rewrite P. destruct d; cbn [app]; rewrite ?app_nil_r; auto.
    - rewrite cat_none. auto.
    - rewrite P. auto.
    - rewrite put_none. auto. }
  rewrite E, IH by auto. rewrite <- app_assoc. auto.
Qed.
Lemma indents_appends ops : forallb appends ops = true -> forall i, indents_ok i ops.
Proof. induction ops as [|o ops IH]; cbn [forallb indents_ok]; auto. intros A i. apply andb_prop in A. destruct A as [A1 A2]. destruct o; try discriminate A1; auto. Qed.
Lemma said_app a b : said (a ++ b) = said a ++ said b.
Proof. apply flat_map_app. Qed.

Lemma in_buffer_said ops : forallb appends ops = true -> in_buffer ops (said ops).
Proof.
  intros A alloc junk s H N. destruct (auto_exact alloc junk ops s H N (indents_appends _ A 0)) as (s' & R & D). exists s'. split; [exact R|].
  unfold vtext in D. rewrite vtext_said in D by auto. exact D.
Qed.

(** * Bytes *)
Lemma oct_numeral c : c < 256 -> numeral oct_val 8 (oct3 c) c.
Proof.
  intros H. unfold oct3. replace c with ((c / 64 * 8 + c / 8 mod 8) * 8 + c mod 8) at 4 by lia.
  change [48 + c / 64; 48 + c / 8 mod 8; 48 + c mod 8] with (([48 + c / 64] ++ [48 + c / 8 mod 8]) ++ [48 + c mod 8]).
  assert (V : forall x, x < 8 -> oct_val (48 + x) = Some x). { intros x X. unfold oct_val. replace (_ && _) with true by lia. f_equal. lia. }
  apply nu_more; [apply nu_more; [apply nu_one|]|]; apply V; lia.
Qed.
Lemma xdigit_val x : x < 16 -> hex_val (xdigit x) = Some x.
Proof.
  intros X. unfold xdigit, hex_val. destruct (x <? 10) eqn:E.
  - replace ((48 <=? 48 + x) && (48 + x <=? 57)) with true by lia. f_equal. lia.
  - replace ((48 <=? 87 + x) && (87 + x <=? 57)) with false by lia. replace ((97 <=? 87 + x) && (87 + x <=? 102)) with true by lia. f_equal. lia.
Qed.
Lemma graph_narrow c : narrow c -> isgraph c = Ok ((33 <=? c) && (c <=? 126)).
Proof. intros N. unfold isgraph. replace (_ && _) with false by (unfold narrow in N; lia). auto. Qed.
Lemma graph_wide c : ~ narrow c -> c < 256 -> isgraph c = UB.
Proof. intros N B. unfold isgraph. replace (_ && _) with true by (unfold narrow in N; lia). auto. Qed.

(* one byte, without the flags which change what can be read back *)
Lemma byte_appends pfx how c o : quote_byte pfx how c = Ok o -> forallb appends o = true.
Proof.
  unfold quote_byte. repeat (match goal with |- context [if ?b then _ else _] => destruct b end; cbn [app bind]; try (intros [= <-]; reflexivity)).
  all: unfold isgraph; repeat (match goal with |- context [if ?b then _ else _] => destruct b end; cbn [app bind]; try (intros [= <-]; reflexivity)); try discriminate.
  all: destruct ((33 <=? c) && (c <=? 126)); intros [= <-]; reflexivity.
Qed.

Lemma octal_text c t v : c < 256 -> c_text t v -> c_text ((92 :: oct3 c) ++ t) (c :: v).
Proof. intros B T. change ((92 :: oct3 c) ++ t) with (92 :: oct3 c ++ t). apply c_octal; auto. apply oct_numeral; auto. Qed.
Lemma oct_printable c : c < 256 -> Forall printable (92 :: oct3 c).
Proof. intros B. unfold oct3, printable. repeat constructor; lia. Qed.
(* all but a line feed *)
Lemma byte_reads pfx how c : f_unsafe how = false -> f_eschex how = false -> narrow c -> c <> 10 -> exists o, quote_byte pfx how c = Ok o /\
  (forall t v, c_text t v -> c_text (said o ++ t) (c :: v)) /\ Forall printable (said o) /\ said o <> [].
Proof.
  intros U X N L. unfold quote_byte. rewrite U, X.
  destruct (c =? 63) eqn:E1; [apply N.eqb_eq in E1; subst c; eexists; split; [reflexivity|]; destruct (f_cstr how); cbn [said flat_map op_data app]; (split; [intros t v T; (apply c_letter || apply c_plain); auto; discriminate|]);
    split; try discriminate; repeat constructor; unfold printable; lia|].
  destruct (c =? 32) eqn:E2; [apply N.eqb_eq in E2; subst c; eexists; split; [reflexivity|]; cbn [said flat_map op_data app]; split; [intros t v T; apply c_plain; auto; discriminate|]; split; try discriminate; repeat constructor; unfold printable; lia|].
  destruct ((c =? 92) || (c =? 34)) eqn:E3.
  { eexists. split; [reflexivity|]. cbn [said flat_map op_data app]. split; [intros t v T; apply c_letter; auto|split; try discriminate; repeat constructor; unfold printable; lia].
    unfold letter_escape. assert (D : c = 92 \/ c = 34) by lia. destruct D as [-> | ->]; auto. }
  replace (c =? 10) with false by lia.
  destruct (c =? 13) eqn:E4; [apply N.eqb_eq in E4; subst c; eexists; split; [reflexivity|]; cbn [said flat_map op_data app]; split; [intros t v T; apply c_letter; auto|]; split; try discriminate; repeat constructor; unfold printable; lia|].
  destruct (c =? 9) eqn:E5; [apply N.eqb_eq in E5; subst c; eexists; split; [reflexivity|]; cbn [said flat_map op_data app]; split; [intros t v T; apply c_letter; auto|]; split; try discriminate; repeat constructor; unfold printable; lia|].
  destruct (c =? 11) eqn:E6; [apply N.eqb_eq in E6; subst c; eexists; split; [reflexivity|]; cbn [said flat_map op_data app]; split; [intros t v T; apply c_letter; auto|]; split; try discriminate; repeat constructor; unfold printable; lia|].
  rewrite graph_narrow by auto. cbn [bind]. eexists. split; [reflexivity|]. assert (B : c < 256) by (unfold narrow in N; lia).
  destruct ((33 <=? c) && (c <=? 126)) eqn:G; unfold said; cbn [flat_map op_data]; rewrite app_nil_r.
  - split; [intros t v T; apply c_plain; auto; lia|]. split; [repeat constructor; unfold printable; lia|discriminate].
  - split; [intros t v T; apply octal_text; auto|]. split; [apply oct_printable; auto|discriminate].
Qed.
Lemma byte_line pfx how : f_cstr how = false -> f_nonl how = false -> f_unsafe how = false -> quote_byte pfx how 10 = Ok [VPrintf [92; 110]].
Proof. intros C N U. unfold quote_byte. cbn [N.eqb Pos.eqb orb]. rewrite C, N, U. auto. Qed.

Lemma loop_reads pfx how : f_cstr how = false -> f_nonl how = false -> f_unsafe how = false -> f_eschex how = false -> forall v, Forall narrow v ->
  exists ops, quote_loop pfx how false v = Ok (ops, false) /\ forallb appends ops = true /\ c_text (said ops) v /\ Forall printable (said ops).
Proof.
  intros C N U X. induction v as [|c v IH]; intros F; [exists []; repeat split; constructor|]. inversion_clear F as [|? ? Fc Fv]. destruct (IH Fv) as (ops & E & A & T & P).
  assert (O : exists o, quote_byte pfx how c = Ok o /\ (forall t v, c_text t v -> c_text (said o ++ t) (c :: v)) /\ Forall printable (said o)).
  { destruct (N.eq_dec c 10) as [->|D].
    - rewrite byte_line by auto. eexists. split; [reflexivity|]. cbn [said flat_map op_data app]. split; [intros; apply c_letter; auto|repeat constructor; unfold printable; lia].
    - destruct (byte_reads pfx how c U X Fc D) as (o & H1 & H2 & H3 & _). eauto. }
  destruct O as (o & E1 & R & P1). exists (o ++ ops). cbn [quote_loop]. rewrite E1. cbn [bind]. unfold newline_left. rewrite N, U, andb_false_r, E. cbn [bind fst snd app].
  split; [auto|]. rewrite forallb_app, (byte_appends _ _ _ _ E1), A, said_app. split; [auto|]. split; [apply R; auto|apply Forall_app; auto].
Qed.
Lemma quoteless v : Forall narrow v -> exists b, needs_quote v = Ok b /\ (b = false -> c_text v v /\ Forall printable v /\ Forall (fun c => c <> 10) v).
Proof.
  induction v as [|c v IH]; intros F; [exists false; repeat split; constructor|]. inversion_clear F as [|? ? Fc Fv]. destruct (IH Fv) as (b & E & H). cbn [needs_quote].
  rewrite graph_narrow by auto. cbn [bind]. destruct (negb ((33 <=? c) && (c <=? 126)) || (c =? 34) || (c =? 92)) eqn:D; [exists true; split; [auto|discriminate]|].
  exists b. split; [auto|]. intros B. destruct (H B) as (T & P & L). split; [apply c_plain; auto; lia|]. split; constructor; auto; unfold printable; lia.
Qed.
Lemma strlen_app v r : ~ In 0 v -> strlen (v ++ 0 :: r) = Ok v.
Proof.
  induction v as [|c v IH]; intros N; [auto|]. cbn [app strlen]. replace (c =? 0) with false by (cbn in N; lia). rewrite IH; [auto|]. intros I. apply N. right. auto.
Qed.
Lemma handed_taken mem n v : handed mem n v ->
  match n with None => strlen mem | Some n => if n <=? len mem then Ok (firstn (N.to_nat n) mem) else UB end = Ok v.
Proof.
  intros [(-> & r & ->)|(-> & Z & r & ->)]; [|apply strlen_app; auto]. replace (len v <=? len (v ++ r)) with true by (unfold len; rewrite app_length; lia).
  unfold len. rewrite Nnat.Nat2N.id, firstn_app, Nat.sub_diag, firstn_all. cbn [firstn]. rewrite app_nil_r. auto.
Qed.

Theorem quote_reads mem n v how : handed mem n v -> Forall narrow v -> f_hex how = false -> f_cstr how = false -> f_nonl how = false -> f_unsafe how = false -> f_eschex how = false ->
  exists ops t, VSB_quote mem n how = Ok ops /\ in_buffer ops t /\ c_text t v /\ Forall printable t.
Proof.
  intros H F X C N U S. unfold VSB_quote, VSB_quote_pfx. rewrite (handed_taken mem n v H). cbn [bind]. rewrite X, C, N, U. destruct v as [|c v].
  { exists [], []. split; [auto|]. split; [apply (in_buffer_said []); auto|]. split; constructor. }
  destruct (quoteless _ F) as (b & -> & Q). cbn [bind orb andb]. rewrite orb_false_r. destruct (negb b && negb (f_json how)) eqn:D.
  - destruct Q as (T & P & _); [destruct b; [discriminate D|auto]|]. exists ([VCat []; VBcat (c :: v)] ++ []), (c :: v). split; [auto|]. split; [|auto].
    pose proof (in_buffer_said ([VCat []; VBcat (c :: v)] ++ []) eq_refl) as I. cbn [said flat_map op_data app] in I. rewrite app_nil_r in I. exact I.
  - destruct (loop_reads [] how C N U S _ F) as (ops & E & A & T & P). rewrite E. cbn [bind fst snd]. eexists. exists (said ops). split; [reflexivity|]. split; [|auto].
    pose proof (in_buffer_said ([VCat []] ++ [] ++ ops ++ [] ++ [])) as I. cbn [app] in *. rewrite !app_nil_r in *. cbn [forallb appends andb said flat_map op_data app] in I. apply I. exact A.
Qed.

(** * As literals *)
Fixpoint calm (p : bool) (t : bytes) : bool :=
  match t with [] => true | c :: r => if c =? 63 then negb p && calm true r else calm false r end.
Lemma calm_no : forall t p, calm p t = true -> no_trigraph t.
Proof.
  induction t as [|c t IH]; intros p H (a & b & E); [destruct a; discriminate E|]. cbn [calm] in H. destruct a as [|x a]; cbn [app] in E; injection E as -> E.
  - subst t. cbn in H. rewrite andb_false_r in H. discriminate H.
  - destruct (x =? 63); [apply andb_prop in H; destruct H as [_ H]|]; apply (IH _ H); exists a, b; exact E.
Qed.
Lemma calm_plain d : Forall (fun c => c <> 63) d -> forall t, (forall q, calm q t = true) -> forall p, calm p (d ++ t) = true.
Proof. induction 1 as [|c d N _ IH]; intros t T p; cbn [app calm]; [auto|]. replace (c =? 63) with false by lia. auto. Qed.
Lemma blank_calm d : blank d -> Forall (fun c => c <> 63) d.
Proof. unfold blank. rewrite !Forall_forall. intros F x I. specialize (F x I). lia. Qed.
Lemma byte_calm pfx how c o t : f_cstr how = true -> f_unsafe how = false -> f_eschex how = false -> blank pfx -> c < 256 -> quote_byte pfx how c = Ok o ->
  (forall q, calm q t = true) -> forall p, calm p (said o ++ t) = true.
Proof.
  intros C U X B L. unfold quote_byte. rewrite C, U, X. destruct (c =? 63) eqn:E1; [intros [= <-] T p; cbn [said flat_map op_data app calm N.eqb Pos.eqb]; rewrite E1; cbn [negb andb]; auto|].
  intros E T p. apply calm_plain; [|exact T]. revert E.
  destruct (c =? 32); [intros [= <-]; repeat constructor; lia|]. destruct ((c =? 92) || (c =? 34)); [intros [= <-]; repeat constructor; cbn; lia|].
  destruct (c =? 10); [intros [= <-]; unfold said; cbn [flat_map op_data]; rewrite app_nil_r; apply (proj2 (Forall_app _ [92; 110; 34; 10] (pfx ++ [34]))); split; [repeat constructor; lia|apply Forall_app; split; [apply blank_calm; auto|repeat constructor; lia]]|].
  destruct (c =? 13); [intros [= <-]; repeat constructor; lia|]. destruct (c =? 9); [intros [= <-]; repeat constructor; lia|]. destruct (c =? 11); [intros [= <-]; repeat constructor; lia|].
  destruct (isgraph c) as [g| | |]; cbn [bind]; try discriminate. destruct g; intros [= <-]; unfold said; cbn [flat_map op_data]; rewrite app_nil_r; unfold oct3; repeat constructor; lia.
Qed.
Lemma loop_literals pfx how e : f_cstr how = true -> f_unsafe how = false -> f_eschex how = false -> blank pfx -> blank e -> forall v, Forall narrow v ->
  exists ops, quote_loop pfx how false v = Ok (ops, false) /\ forallb appends ops = true /\ (forall p, calm p (said ops ++ [34] ++ e) = true) /\
  exists body t w1 w2, said ops ++ [34] ++ e = body ++ [34] ++ t /\ c_text body w1 /\ c_literals t w2 /\ v = w1 ++ w2.
Proof.
  intros C U X B Be. induction v as [|c v IH]; intros F.
  { exists []. split; [auto|]. split; [auto|]. split.
    - intros p. cbn [said flat_map app]. rewrite <- (app_nil_r (34 :: e)). apply calm_plain; [constructor; [discriminate|apply blank_calm; auto]|auto].
    - exists [], e, [], []. repeat split; try constructor. exact Be. }
  inversion_clear F as [|? ? Fc Fv]. destruct (IH Fv) as (ops & E & A & K & body & t & w1 & w2 & E2 & T & L & ->).
  assert (O : exists o, quote_byte pfx how c = Ok o). { destruct (N.eq_dec c 10) as [->|D]; [eexists; reflexivity|]. destruct (byte_reads pfx how c U X Fc D) as (o & H1 & _). eauto. }
  destruct O as (o & E1). exists (o ++ ops). cbn [quote_loop]. rewrite E1. cbn [bind]. unfold newline_left. rewrite C, andb_false_r. cbn [negb andb]. rewrite E. cbn [bind fst snd app].
  split; [auto|]. rewrite forallb_app, (byte_appends _ _ _ _ E1), A, said_app. split; [auto|]. rewrite <- app_assoc. split.
  { intros p. apply (byte_calm pfx how c o); auto. unfold narrow in Fc. lia. }
  change ([34] ++ e) with (34 :: e) in *. rewrite E2. destruct (N.eq_dec c 10) as [->|D].
  - unfold quote_byte in E1. cbn [N.eqb Pos.eqb orb] in E1. rewrite C in E1. injection E1 as <-. unfold said. cbn [flat_map op_data]. rewrite app_nil_r.
    exists [92; 110], ((10 :: pfx) ++ [34] ++ body ++ [34] ++ t), [10], (w1 ++ w2). split; [cbn [app]; rewrite <- !app_assoc; auto|].
    split; [apply c_letter; [auto|constructor]|]. split; [|auto]. apply cl_one; auto. constructor; auto.
  - destruct (byte_reads pfx how c U X Fc D) as (o' & H1 & H2 & _). assert (o' = o) by congruence. subst o'.
    exists (said o ++ body), t, (c :: w1), w2. split; [rewrite <- app_assoc; auto|]. auto.
Qed.
Theorem quote_literals pfx mem n v how : handed mem n v -> Forall narrow v -> blank pfx -> f_hex how = false -> f_cstr how = true -> f_unsafe how = false -> f_eschex how = false ->
  exists ops t, VSB_quote_pfx pfx mem n how = Ok ops /\ in_buffer ops t /\ c_literals t v /\ In 34 t /\ no_trigraph t.
Proof.
  intros H F B X C U S. unfold VSB_quote_pfx. rewrite (handed_taken mem n v H). cbn [bind]. rewrite X, C, U. destruct v as [|c v].
  { exists [VPrintf (pfx ++ [34; 34])], (pfx ++ [34; 34]). split; [auto|]. split.
    - pose proof (in_buffer_said [VPrintf (pfx ++ [34; 34])] eq_refl) as I. unfold said in I. cbn [flat_map op_data] in I. rewrite app_nil_r in I. exact I.
    - split; [apply (cl_one pfx [] [] [] []); [auto|constructor|apply cl_end; constructor]|]. split; [apply in_or_app; right; left; auto|].
      apply (calm_no _ false). apply calm_plain; [apply blank_calm; auto|reflexivity]. }
  destruct (quoteless _ F) as (b & -> & _). cbn [bind]. rewrite orb_true_r, andb_false_r, orb_false_r.
  set (e := if f_nonl how && negb false then [VPutc 10] else []).
  assert (Be : blank (said e)) by (subst e; destruct (f_nonl how); repeat constructor; lia).
  destruct (loop_literals pfx how (said e) C U S B Be _ F) as (ops & E & A & K & body & t & w1 & w2 & E2 & T & L & EV). rewrite E. cbn [bind fst snd].
  eexists. exists (pfx ++ [34] ++ said ops ++ [34] ++ said e). split; [reflexivity|]. fold e. split; [|split; [|split]].
  - pose proof (in_buffer_said ([VCat pfx] ++ [VPutc 34] ++ ops ++ [VPutc 34] ++ e)) as I. rewrite !said_app, !forallb_app, A in I. unfold said at 1 2 4 in I. cbn [flat_map op_data] in I. rewrite app_nil_r in I. apply I.
    subst e. destruct (f_nonl how); auto.
  - rewrite E2, EV. apply cl_one; auto.
  - apply in_or_app. right. left. auto.
  - apply (calm_no _ false). apply calm_plain; [apply blank_calm; auto|]. intros q. apply (calm_plain [34]); [repeat constructor; discriminate|exact K].
Qed.
