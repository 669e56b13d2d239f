(* Literals are read in one way only; hexadecimal texts; what goes wrong. *)
From Coq Require Import String.
From Coq Require Import ZifyBool ZifyNat ZifyN.
From Verif Require Import Base BaseLemmas InflateSpec VsbModel VsbSpec VsbProofs QuoteModel QuoteSpec QuoteMain.
Open Scope string_scope.
Open Scope list_scope.
Open Scope N_scope.
Ltac Zify.zify_post_hook ::= Z.div_mod_to_equations.

(** * One way only *)
Definition value (val : N -> option N) (base : N) (ds : bytes) : N := fold_left (fun a d => a * base + match val d with Some x => x | None => 0 end) ds 0.
Lemma numeral_value val base ds n : numeral val base ds n -> n = value val base ds.
Proof. unfold value. induction 1 as [d x V|ds d n x _ IH V]; [cbn; rewrite V; lia|]. rewrite fold_left_app. cbn [fold_left]. rewrite V, <- IH. auto. Qed.
Lemma numeral_digits val base ds n : numeral val base ds n -> ds <> [] /\ Forall (fun d => val d <> None) ds.
Proof.
  induction 1 as [d x V|ds d n x _ IH V]; [split; [discriminate|]; repeat constructor; congruence|]. destruct IH as [N F]. split; [destruct ds; discriminate|].
  apply Forall_app. split; [auto|]. repeat constructor. congruence.
Qed.
(* where the digits end *)
Lemma digits_end val (P : bytes -> Prop) ds t ds' t' : Forall (fun d => val d <> None) ds -> Forall (fun d => val d <> None) ds' ->
  (P ds \/ no_digit val t) -> (P ds' \/ no_digit val t') -> (forall a b, P a -> b <> [] -> P (a ++ b) -> False) -> (forall a b, P a -> b <> [] -> In (a ++ b) [ds; ds'] -> False) ->
  ds ++ t = ds' ++ t' -> ds = ds' /\ t = t'.
Proof.
  intros F F' E E' _ S. revert ds' F' E' S. intros ds' F' E' S X. apply app_eq_app in X. destruct X as (l & [(A & B)|(A & B)]); (destruct l as [|d l]; [rewrite app_nil_r in A; cbn in B; auto|exfalso]).
  - subst ds t'. apply Forall_app in F. destruct F as [_ F]. inversion_clear F as [|? ? D _]. destruct E' as [E'|E'].
    + apply (S ds' (d :: l) E'); [discriminate|left; auto].
    + cbn in E'. congruence.
  - subst ds' t. apply Forall_app in F'. destruct F' as [_ F']. inversion_clear F' as [|? ? D _]. destruct E as [E|E].
    + apply (S ds (d :: l) E); [discriminate|right; left; auto].
    + cbn in E. congruence.
Qed.
Lemma octal_end ds t ds' t' : Forall (fun d => oct_val d <> None) ds -> Forall (fun d => oct_val d <> None) ds' -> (List.length ds <= 3)%nat -> (List.length ds' <= 3)%nat ->
  (List.length ds = 3%nat \/ no_digit oct_val t) -> (List.length ds' = 3%nat \/ no_digit oct_val t') -> ds ++ t = ds' ++ t' -> ds = ds' /\ t = t'.
Proof.
  intros F F' L L' E E'. apply (digits_end oct_val (fun d => List.length d = 3%nat)); auto.
  - intros a b A N X. rewrite app_length in X. destruct b; [auto|]. cbn in X. lia.
  - intros a b A N I. destruct b as [|x b]; [auto|]. destruct I as [I|[I|[]]]; rewrite I, app_length in *; cbn in *; lia.
Qed.
Lemma hex_end ds t ds' t' : Forall (fun d => hex_val d <> None) ds -> Forall (fun d => hex_val d <> None) ds' -> no_digit hex_val t -> no_digit hex_val t' -> ds ++ t = ds' ++ t' -> ds = ds' /\ t = t'.
Proof. intros F F' E E'. apply (digits_end hex_val (fun _ => False)); auto. Qed.
Lemma no_digit_more val b t : val 34 = None -> no_digit val b -> no_digit val (b ++ 34 :: t).
Proof. destruct b; auto. Qed.
Lemma octal_letter d x : oct_val d <> None -> letter_escape d = Some x -> False.
Proof.
  unfold oct_val, letter_escape. destruct ((48 <=? d) && (d <=? 55)) eqn:E; [|intros H; destruct (H eq_refl)]. intros _.
  repeat (match goal with |- (if ?b then _ else _) = _ -> _ => destruct b eqn:? end; [lia|]). discriminate.
Qed.
Lemma text_one b v : c_text b v -> forall b' v' t t', c_text b' v' -> b ++ 34 :: t = b' ++ 34 :: t' -> b = b' /\ v = v' /\ t = t'.
Proof.
  induction 1 as [|c b v N1 N2 N3 T IH|e x b v L T IH|ds x b v Nu Lt Ln G T IH|ds x b v Nu Lt G T IH]; intros b' v' t t' T' E.
  - inversion T'; subst; cbn [app] in E; try discriminate E; [injection E as ->; auto|congruence].
  - inversion T'; subst; cbn [app] in E; injection E as E0 E; try congruence. destruct (IH _ _ _ _ H2 E) as (-> & -> & ->). subst. auto.
  - inversion T'; subst; cbn [app] in E; try discriminate E; try (injection E as E0 E; congruence).
    + injection E as -> E. rewrite L in H. injection H as ->. destruct (IH _ _ _ _ H0 E) as (-> & -> & ->). auto.
    + exfalso. destruct (numeral_digits _ _ _ _ H) as [N F]. destruct ds as [|d ds]; [auto|]. injection E as -> E. inversion_clear F as [|? ? D _]. eapply octal_letter; eauto.
    + injection E as -> E. discriminate L.
  - destruct (numeral_digits _ _ _ _ Nu) as [N F]. inversion T'; subst; cbn [app] in E; try (destruct ds; [auto|]; discriminate E); try (injection E as E0 E; congruence).
    + exfalso. destruct ds as [|d ds]; [auto|]. injection E as -> E. inversion_clear F as [|? ? D _]. eapply octal_letter; eauto.
    + destruct (numeral_digits _ _ _ _ H) as [N' F']. injection E as E. rewrite <- !app_assoc in E.
      destruct (octal_end ds (b ++ 34 :: t) ds0 (t0 ++ 34 :: t') F F' Ln H1) as (E1 & E2); auto.
      { destruct G; [auto|right; apply no_digit_more; auto]. } { destruct H2; [auto|right; apply no_digit_more; auto]. }
      destruct (IH _ _ _ _ H3 E2) as (-> & -> & ->). subst ds0. rewrite (numeral_value _ _ _ _ Nu), (numeral_value _ _ _ _ H). auto.
    + exfalso. destruct ds as [|d ds]; [auto|]. injection E as -> E. inversion_clear F as [|? ? D _]. apply D. reflexivity.
  - destruct (numeral_digits _ _ _ _ Nu) as [N F]. inversion T'; subst; cbn [app] in E; try discriminate E; try (injection E as E0 E; congruence).
    + exfalso. injection E as <- E. discriminate H.
    + exfalso. destruct (numeral_digits _ _ _ _ H) as [N' F']. destruct ds0 as [|d ds0]; [auto|]. injection E as <- E. inversion_clear F' as [|? ? D _]. apply D. reflexivity.
    + destruct (numeral_digits _ _ _ _ H) as [N' F']. injection E as E. rewrite <- !app_assoc in E.
      destruct (hex_end ds (b ++ 34 :: t) ds0 (t0 ++ 34 :: t') F F') as (E1 & E2); auto; try (apply no_digit_more; auto).
      destruct (IH _ _ _ _ H2 E2) as (-> & -> & ->). subst ds0. rewrite (numeral_value _ _ _ _ Nu), (numeral_value _ _ _ _ H). auto.
Qed.
Theorem text_unique t v v' : c_text t v -> c_text t v' -> v = v'.
Proof. intros A B. destruct (text_one _ _ A _ _ [] [] B eq_refl) as (_ & E & _). auto. Qed.
Lemma blank_end sp t sp' t' : blank sp -> blank sp' -> sp ++ 34 :: t = sp' ++ 34 :: t' -> sp = sp' /\ t = t'.
Proof.
  revert sp'. induction sp as [|c sp IH]; intros [|c' sp'] B B' E; cbn [app] in E; [injection E as E; auto| | |]; injection E as E0 E.
  - subst c'. inversion_clear B' as [|? ? X _]. lia.
  - subst c. inversion_clear B as [|? ? X _]. lia.
  - subst c'. inversion_clear B. inversion_clear B'. destruct (IH sp') as (-> & ->); auto.
Qed.
Lemma blank_no sp sp' t : blank sp -> sp = sp' ++ 34 :: t -> False.
Proof. intros B ->. apply Forall_app in B. destruct B as [_ B]. inversion_clear B as [|? ? X _]. lia. Qed.
Theorem literals_unique t v : c_literals t v -> forall v', c_literals t v' -> v = v'.
Proof.
  induction 1 as [sp B|sp body t v w B T L IH]; intros v' L'.
  - inversion L' as [sp' B' E|sp' body' t' v0 w' B' T' L0 E]; [auto|]. exfalso. eapply blank_no; [exact B|symmetry; exact E].
  - inversion L' as [sp' B' E|sp' body' t' v0 w' B' T' L0 E].
    + exfalso. eapply blank_no; [exact B'|reflexivity].
    + destruct (blank_end sp' (body' ++ [34] ++ t') sp (body ++ [34] ++ t) B' B E) as (-> & E2). destruct (text_one _ _ T' _ _ t' t T E2) as (_ & -> & ->). rewrite (IH _ L0). auto.
Qed.

(** * Hexadecimal *)
Lemma pairs_hex v : is_bytes v -> hex_pairs (said (map (fun c => VPrintf (hex2 c)) v)) v.
Proof.
  induction 1 as [|c v B _ IH]; [constructor|]. cbn [map]. unfold said. cbn [flat_map op_data]. fold (said (map (fun c => VPrintf (hex2 c)) v)). unfold hex2 at 1. cbn [app].
  replace (c :: v) with (16 * (c / 16) + c mod 16 :: v) by (f_equal; lia). constructor; auto; apply xdigit_val; lia.
Qed.
Theorem quote_hex pfx mem n v how : handed mem n v -> is_bytes v -> f_hex how = true -> v <> [] -> (exists c, In c v /\ c <> 0) \/ len v <= 4 ->
  exists ops h, VSB_quote_pfx pfx mem n how = Ok ops /\ in_buffer ops (pfx ++ str "0x" ++ h) /\ hex_pairs h v.
Proof.
  intros H B X NE Z. unfold VSB_quote_pfx. rewrite (handed_taken mem n v H). cbn [bind]. rewrite X. destruct v as [|c v]; [destruct (NE eq_refl)|]. set (w := c :: v) in *.
  replace (forallb (N.eqb 0) w && (4 <? len w)) with false.
  2:{ symmetry. destruct Z as [(d & I & D)|Z]; [|replace (4 <? len w) with false by lia; apply andb_false_r]. apply andb_false_intro1. destruct (forallb (N.eqb 0) w) eqn:E; [|auto].
      rewrite forallb_forall in E. specialize (E d I). lia. }
  exists ([VCat pfx; VCat (str "0x")] ++ map (fun c => VPrintf (hex2 c)) w), (said (map (fun c => VPrintf (hex2 c)) w)). split; [auto|]. split; [|apply pairs_hex; auto].
  pose proof (in_buffer_said ([VCat pfx; VCat (str "0x")] ++ map (fun c => VPrintf (hex2 c)) w)) as I. rewrite said_app in I.
  change (said [VCat pfx; VCat (str "0x")]) with (pfx ++ str "0x" ++ []) in I. rewrite app_nil_r, <- app_assoc in I. apply I. rewrite forallb_app. cbn [forallb appends andb].
  clear. induction w; auto.
Qed.

(** * Ends of lines *)
Lemma last_snoc (a : bytes) x : last (a ++ [x]) 0 = x.
Proof. apply last_last. Qed.
Lemma loop_left pfx how : forall v nl ops, quote_loop pfx how nl v = Ok (ops, true) -> v <> [] -> exists t, said ops = t ++ [10].
Proof.
  induction v as [|c v IH]; intros nl ops; [congruence|]. intros E _. cbn [quote_loop] in E. destruct (quote_byte pfx how c) as [o| | |] eqn:Q; cbn [bind] in E; try discriminate E.
  destruct (quote_loop pfx how (newline_left how c) v) as [[ops' nl']| | |] eqn:Q2; cbn [bind fst snd] in E; try discriminate E. injection E as <- ->. rewrite !said_app.
  destruct v as [|d v].
  - cbn [quote_loop] in Q2. injection Q2 as <- NL. unfold newline_left in NL. apply andb_prop in NL. destruct NL as [NL F]. apply andb_prop in NL. destruct NL as [N1 N2].
    assert (c = 10) by lia. subst c. unfold quote_byte in Q. cbn [N.eqb Pos.eqb orb] in Q. destruct (f_cstr how); [discriminate N2|]. rewrite F in Q. injection Q as <-.
    eexists. unfold said at 2 3. cbn [flat_map op_data]. rewrite !app_nil_r. reflexivity.
  - destruct (IH _ _ Q2) as (t & ->); [discriminate|]. eexists. rewrite !app_assoc. reflexivity.
Qed.
Lemma loop_some pfx how : forall v nl, Forall narrow v -> exists ops b, quote_loop pfx how nl v = Ok (ops, b) /\ forallb appends ops = true.
Proof.
  induction v as [|c v IH]; intros nl F; [exists [], nl; auto|]. inversion_clear F as [|? ? Fc Fv]. cbn [quote_loop].
  assert (O : exists o, quote_byte pfx how c = Ok o).
  { unfold quote_byte. repeat (match goal with |- context [if ?b then Ok _ else _] => destruct b; [eexists; reflexivity|] end). rewrite graph_narrow by auto. eexists. reflexivity. }
  destruct O as (o & E1). rewrite E1. cbn [bind]. destruct (IH (newline_left how c) Fv) as (ops & b & -> & A). cbn [bind fst snd]. eexists. eexists. split; [reflexivity|].
  rewrite !forallb_app, A, (byte_appends _ _ _ _ E1). destruct nl; auto.
Qed.
Theorem quote_line pfx mem n v how : handed mem n v -> Forall narrow v -> v <> [] -> f_hex how = false -> f_nonl how = true \/ f_unsafe how = true ->
  exists ops t, VSB_quote_pfx pfx mem n how = Ok ops /\ in_buffer ops (t ++ [10]).
Proof.
  intros H F NE X W. unfold VSB_quote_pfx. rewrite (handed_taken mem n v H). cbn [bind]. rewrite X. destruct v as [|c v]; [destruct (NE eq_refl)|]. set (w := c :: v) in *.
  replace (f_unsafe how || f_nonl how) with true by (destruct W as [-> | ->]; rewrite ?orb_true_r; auto). replace (f_nonl how || f_unsafe how) with true by (destruct W as [-> | ->]; rewrite ?orb_true_r; auto).
  cbn [andb]. destruct (quoteless _ F) as (b & -> & Q). cbn [bind]. destruct (negb b && negb (f_json how || f_cstr how)) eqn:D.
  - destruct Q as (_ & _ & L); [destruct b; [discriminate D|auto]|]. replace (last w 0 =? 10) with false.
    2:{ symmetry. apply N.eqb_neq. rewrite Forall_forall in L. apply L. rewrite (app_removelast_last 0 NE) at 2. apply in_or_app. right. left. auto. }
    cbn [negb]. eexists. exists (pfx ++ w). split; [reflexivity|]. pose proof (in_buffer_said ([VCat pfx; VBcat w] ++ [VPutc 10]) eq_refl) as I. rewrite said_app in I.
    unfold said in I. cbn [flat_map op_data] in I. rewrite !app_nil_r in I. exact I.
  - destruct (loop_some pfx how w false F) as (ops & nl & E & A). rewrite E. cbn [bind fst snd]. set (q := if f_cstr how then [VPutc 34] else []).
    assert (Aq : forallb appends q = true) by (subst q; destruct (f_cstr how); auto). destruct nl; cbn [negb].
    + destruct (loop_left _ _ _ _ _ E NE) as (t & Et).
      assert (C : f_cstr how = false). { destruct (f_cstr how) eqn:C; [|auto]. exfalso. clear - E C. revert ops E. assert (G : forall u nl ops, quote_loop pfx how nl u = Ok (ops, true) -> nl = true).
        { induction u as [|d u IH]; intros nl ops E; cbn [quote_loop] in E; [injection E as _ ->; auto|]. destruct (quote_byte pfx how d); cbn [bind] in E; try discriminate E.
          destruct (quote_loop pfx how (newline_left how d) u) as [[o b]| | |] eqn:Q; cbn [bind fst snd] in E; try discriminate E. injection E as _ ->. apply IH in Q. unfold newline_left in Q. rewrite C, andb_false_r in Q. discriminate Q. }
        intros ops E. apply G in E. discriminate E. }
      subst q. rewrite C. cbn [app]. eexists. exists (pfx ++ t). split; [reflexivity|]. rewrite app_nil_r. pose proof (in_buffer_said (VCat pfx :: ops)) as I. cbn [forallb appends andb] in I.
      unfold said in I. cbn [flat_map op_data] in I. fold (said ops) in I. rewrite Et in I. rewrite <- app_assoc. apply I. exact A.
    + eexists. exists (pfx ++ said q ++ said ops ++ said q). split; [reflexivity|]. pose proof (in_buffer_said ([VCat pfx] ++ q ++ ops ++ q ++ [VPutc 10])) as I.
      rewrite !said_app, !forallb_app, Aq, A in I. unfold said at 1 5 in I. cbn [flat_map op_data] in I. rewrite !app_nil_r in I. rewrite <- !app_assoc. apply I. reflexivity.
Qed.

(** * What goes wrong *)
Theorem char_refuted pfx mem n v how : handed mem n v -> is_bytes v -> f_hex how = false -> (exists c, In c v /\ ~ narrow c) -> VSB_quote_pfx pfx mem n how = UB.
Proof.
  intros H B X (c & I & N). unfold VSB_quote_pfx. rewrite (handed_taken mem n v H). cbn [bind]. rewrite X. destruct v as [|d v]; [destruct I|]. set (w := d :: v) in *.
  assert (LU : forall u, is_bytes u -> In c u -> forall nl, quote_loop pfx how nl u = UB).
  { clear - N. induction u as [|d u IH]; intros B I nl; [destruct I|]. inversion_clear B as [|? ? Bd Bv]. cbn [quote_loop]. destruct I as [->|I].
    - assert (Q : quote_byte pfx how c = UB). { unfold quote_byte. unfold narrow in N. replace (c =? 63) with false by lia. replace (c =? 32) with false by lia.
        replace ((c =? 92) || (c =? 34)) with false by lia. replace (c =? 10) with false by lia. replace (c =? 13) with false by lia. replace (c =? 9) with false by lia. replace (c =? 11) with false by lia.
        rewrite graph_wide; auto. }
      rewrite Q. auto.
    - rewrite IH by auto. assert (O : (exists o, quote_byte pfx how d = Ok o) \/ quote_byte pfx how d = UB).
      { unfold quote_byte. repeat (match goal with |- context [if ?b then Ok _ else _] => destruct b; [left; eexists; reflexivity|] end). unfold isgraph. destruct (_ && _); [right; auto|left; eexists; reflexivity]. }
      destruct O as [(o & ->)| ->]; auto. }
  assert (Q : needs_quote w = UB \/ needs_quote w = Ok true).
  { clear - N B I. clearbody w. revert B I. induction w as [|e w IH]; intros B I; [destruct I|]. inversion_clear B as [|? ? Bd Bv]. cbn [needs_quote]. destruct I as [->|I].
    - rewrite graph_wide by auto. auto.
    - unfold isgraph. destruct ((128 <=? e) && (e <? 255)); [auto|]. cbn [bind]. destruct (_ || _); auto. }
  destruct Q as [-> | ->]; [auto|]. cbn [bind negb andb]. rewrite LU; auto.
Qed.
Lemma zeros_refuted : exists v v' ops, v <> v' /\ VSB_quote v (Some (len v)) 4 = Ok ops /\ VSB_quote v' (Some (len v')) 4 = Ok ops.
Proof. exists (repeat 0 5), (repeat 0 6). eexists. split; [discriminate|]. split; reflexivity. Qed.
Lemma eschex_refuted : exists v ops t, Forall narrow v /\ VSB_quote v (Some (len v)) 40 = Ok ops /\ in_buffer ops t /\ ~ c_literals t v.
Proof.
  exists [1; 97]. eexists. exists ([34; 92; 120; 48; 49; 97; 34]). split; [repeat constructor; left; reflexivity|]. split; [reflexivity|]. split.
  - match goal with |- in_buffer ?o _ => exact (in_buffer_said o eq_refl) end.
  - intros L. assert (L2 : c_literals [34; 92; 120; 48; 49; 97; 34] ([26] ++ [])).
    { apply (cl_one [] [92; 120; 48; 49; 97] [] [26] []); [constructor| |apply cl_end; constructor]. apply (c_hex [48; 49; 97] 26 [] []); [|reflexivity|exact I|constructor].
      apply (nu_more hex_val 16 [48; 49] 97 1 10); [apply (nu_more hex_val 16 [48] 49 0 1); [apply nu_one|]|]; reflexivity. }
    pose proof (literals_unique _ _ L _ L2) as E. discriminate E.
Qed.
Lemma json_refuted : exists ops, VSB_quote (str "a") (Some 1) 2 = Ok ops /\ in_buffer ops (str "a").
Proof. eexists. split; [reflexivity|]. match goal with |- in_buffer ?o _ => exact (in_buffer_said o eq_refl) end. Qed.
Lemma quote_case : handed (str "what?" ++ [10; 1; 255]) (Some 8) (str "what?" ++ [10; 1; 255]) /\ Forall narrow (str "what?" ++ [10; 1; 255]) /\ blank [9] /\
  exists ops, VSB_quote_pfx [9] (str "what?" ++ [10; 1; 255]) (Some 8) 8 = Ok ops /\
  in_buffer ops ([9; 34] ++ str "what\?\n" ++ [34; 10; 9; 34] ++ str "\001\377" ++ [34]).
Proof.
  split; [left; split; [reflexivity|exists []; reflexivity]|]. split; [repeat constructor; unfold narrow; lia|]. split; [repeat constructor; lia|]. eexists. split; [reflexivity|].
  match goal with |- in_buffer ?o _ => exact (in_buffer_said o eq_refl) end.
Qed.
