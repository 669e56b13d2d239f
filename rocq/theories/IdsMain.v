(* Proofs about the commands which list identifiers. *)
From Coq Require Import String Permutation Sorting.Sorted.
From Verif Require Import Base BaseLemmas ListLemmas IndexModel IndexSpec IndexProofs IndexSysModel IndexSysSpec IndexMain HeaderModel HeaderSpec HeaderProofs
  InflateSpec GzipModel GzipSpec ProgModel StoreModel StoreSpec StoreSysModel StoreWp StoreCalls StoreHdr StoreWorld StoreGet StoreSys StoreMain StoreOrigin StoreEnd
  FilterProofs FilterMain AuditMain CgiMain IdsModel IdsSpec.
Open Scope string_scope.
Open Scope list_scope.
Open Scope N_scope.

(** * Lines of dumpindex *)

Lemma hex_value_app a b : hex_value (a ++ b) = hex_value a * 16 ^ len b + hex_value b.
Proof.
  induction a as [|c a IH]; [reflexivity|]. cbn [app hex_value]. rewrite IH, len_app, N.pow_add_r. lia.
Qed.

Lemma hex_digit_dig d : d < 16 -> hex_digit (hexdig d) = d.
Proof. intros H. unfold hex_digit, hexdig. destruct (d <? 10) eqn:E; [destruct (48 + d <? 58) eqn:F; lia|destruct (87 + d <? 58) eqn:F; lia]. Qed.

Lemma hex_value_pad k : forall n, n < 16 ^ N.of_nat k -> hex_value (hexpad k n) = n.
Proof.
  induction k as [|k IH]; intros n H; [cbn in *; lia|]. cbn [hexpad]. rewrite hex_value_app. cbn [hex_value].
  rewrite Nat2N.inj_succ, N.pow_succ_r' in H. rewrite IH, hex_digit_dig by lia. change (len [hexdig (n mod 16)]) with 1. change (len []) with 0. cbn [N.pow]. lia.
Qed.

Lemma blanks_gap k s : numeral s -> exists g, [32] ++ blanks k s = g ++ s /\ gap g.
Proof.
  intros _. exists (32 :: repeat 32 (k - List.length s)). split; [reflexivity|]. split; [discriminate|].
  constructor; auto. apply Forall_forall. intros x H. apply repeat_spec in H. auto.
Qed.

Lemma dec_numeral n : numeral (dec n).
Proof. split; [apply dec_nonempty|apply dec_digits]. Qed.

Lemma dump_shows e : List.length (e_key e) = 24%nat -> List.length (e_cont e) = 8%nat -> e_flags e < 2 ^ 32 -> shows e (dump_line e).
Proof.
  intros K Ct F. destruct (blanks_gap 8 (dec (e_silo e)) (dec_numeral _)) as (g1 & E1 & G1).
  destruct (blanks_gap 12 (dec (e_off e)) (dec_numeral _)) as (g2 & E2 & G2).
  exists (hexpad 8 (e_flags e)), (dec (e_silo e)), (dec (e_off e)), g1, g2. split.
  - unfold dump_line. do 3 f_equal. rewrite (app_assoc [32]), E1, (app_assoc [32]), E2, <- !app_assoc. reflexivity.
  - assert (V : forall n, dec_value (dec n) = n) by (intros n; rewrite dec_value_undec; apply undec_dec).
    assert (X : hex_value (hexpad 8 (e_flags e)) = e_flags e) by (apply hex_value_pad; exact F).
    assert (Y : hexstr (hexpad 8 (e_flags e))) by apply hexpad_hex.
    pose proof (hexpad_length 8 (e_flags e)). pose proof (dec_numeral (e_silo e)). pose proof (dec_numeral (e_off e)). auto 20.
Qed.

Lemma cut_span (P : N -> Prop) a : forall b a' b', Forall P a -> Forall P a' ->
  (match b with c :: _ => ~ P c | [] => False end) -> (match b' with c :: _ => ~ P c | [] => False end) ->
  a ++ b = a' ++ b' -> a = a' /\ b = b'.
Proof.
  induction a as [|x a IH]; intros b a' b' H H' B B' E.
  - destruct a' as [|y a']; [auto|]. cbn [app] in E. subst b. inversion H'; subst. contradiction.
  - inversion H; subst. destruct a' as [|y a'].
    + cbn [app] in E. subst b'. contradiction.
    + inversion H'; subst. injection E as <- E. destruct (IH b a' b') as (-> & ->); auto.
Qed.

Lemma numeral_hd s t : numeral s -> match s ++ t with c :: _ => c <> 32 | [] => False end.
Proof. intros (N & F). destruct s as [|c s]; [congruence|]. inversion F; subst. cbn [app]. intros ->. discriminate. Qed.
Lemma gap_hd s t : gap s -> match s ++ t with c :: _ => is_digit c <> true | [] => False end.
Proof. intros (N & F). destruct s as [|c s]; [congruence|]. inversion F; subst. cbn [app]. discriminate. Qed.

Lemma shows_front e l e' l' r r' : shows e l -> shows e' l' -> l ++ r = l' ++ r' -> e = e' /\ l = l' /\ r = r'.
Proof.
  intros (fl & si & off & g1 & g2 & -> & K & Ct & LF & HF & VF & NS & VS & NO & VO & G1 & G2)
         (fl' & si' & off' & g1' & g2' & -> & K' & Ct' & LF' & HF' & VF' & NS' & VS' & NO' & VO' & G1' & G2') E.
  rewrite <- !app_assoc in E. apply app_eq_len in E; [|congruence]. destruct E as (E1 & E).
  apply app_inv_head in E. apply app_eq_len in E; [|congruence]. destruct E as (E2 & E).
  apply (cut_span (fun c => c = 32)) in E; [|apply G1|apply G1'|apply numeral_hd; auto|apply numeral_hd; auto]. destruct E as (E3 & E).
  apply (cut_span (fun c => is_digit c = true)) in E; [|apply NS|apply NS'|apply gap_hd; auto|apply gap_hd; auto]. destruct E as (E4 & E).
  apply (cut_span (fun c => c = 32)) in E; [|apply G2|apply G2'|apply numeral_hd; auto|apply numeral_hd; auto]. destruct E as (E5 & E).
  apply (cut_span (fun c => is_digit c = true)) in E; [|apply NO|apply NO'|discriminate|discriminate]. destruct E as (E6 & E).
  apply app_inv_head in E. apply app_eq_len in E; [|congruence]. destruct E as (E7 & E). apply app_inv_head in E.
  destruct e as [k f s o c], e' as [k' f' s' o' c']. cbn [e_key e_flags e_silo e_off e_cont] in *. subst. auto.
Qed.

Lemma shows_nonempty e l : shows e l -> l <> [].
Proof. intros (fl & si & off & g1 & g2 & -> & K & _) E. apply app_eq_nil in E. destruct E as (E & _). rewrite E in K. discriminate. Qed.

Lemma dump_unique es1 : forall ls1 es2 ls2, Forall2 shows es1 ls1 -> Forall2 shows es2 ls2 -> List.concat ls1 = List.concat ls2 -> es1 = es2 /\ ls1 = ls2.
Proof.
  induction es1 as [|e es IH]; intros ls1 es2 ls2 A B E; inversion A; subst.
  - inversion B; subst; [auto|]. cbn [List.concat] in E. symmetry in E. apply app_eq_nil in E. destruct E as (E & _).
    exfalso. eapply shows_nonempty; [|exact E]. eauto.
  - inversion B; subst; cbn [List.concat] in E.
    + apply app_eq_nil in E. destruct E as (E & _). exfalso. eapply shows_nonempty; [|exact E]. eauto.
    + eapply shows_front in E; eauto. destruct E as (-> & -> & E). destruct (IH _ _ _ H3 H0 E) as (-> & ->). auto.
Qed.

(** * dumpindex *)

Definition pick (u : N) (e : ixent) : bool := (u =? 0) || (e_flags e =? u).

Lemma run_dump u l : forall out, run_cb (dumpindex_iter u) l out = (0%Z, out ++ List.concat (map dump_line (filter (pick u) l))).
Proof.
  induction l as [|e l IH]; intros out; cbn [run_cb]; [cbn; rewrite app_nil_r; auto|].
  cbn [filter]. unfold dumpindex_iter at 1. rewrite IH. replace (negb (u =? 0) && negb (e_flags e =? u)) with (negb (pick u e)).
  2: { unfold pick. apply negb_orb. }
  cbn [Z.eqb]. destruct (pick u e); cbn [negb map List.concat]; [rewrite app_assoc|]; auto.
Qed.

Lemma dump_args_ok u st : forall args out, (forall k, In k args -> exists l, lookup st (Some k) = Ok l) ->
  exists ls, Forall2 (fun k l => lookup st (Some k) = Ok l) args ls /\
    dump_args u st args out = Ok (out ++ List.concat (map dump_line (filter (pick u) (List.concat ls)))).
Proof.
  induction args as [|k r IH]; intros out H.
  - exists []. split; [constructor|]. cbn. rewrite app_nil_r. auto.
  - destruct (H k (or_introl eq_refl)) as (l & E). destruct (iter_any (dumpindex_iter u) st (Some k) l out E) as (i & EI).
    rewrite run_dump in EI. cbn [snd] in EI.
    destruct (IH (out ++ List.concat (map dump_line (filter (pick u) l)))) as (ls & F & ER); [intros k' X; apply H; right; auto|].
    exists (l :: ls). split; [constructor; auto|]. cbn [dump_args]. rewrite EI. cbn [bind]. rewrite ER. f_equal. rewrite <- app_assoc. f_equal.
    cbn [List.concat]. rewrite filter_app, map_app, concat_app. auto.
Qed.

Lemma word_pick t u e : dump_type t = Some u -> (pick u e = true <-> word_flag t e).
Proof.
  unfold dump_type, pick, word_flag. destruct t as [t|]; [|intros [= <-]; cbn; tauto].
  destruct (bytes_eqb t (str "metadata")) eqn:A; [apply bytes_eqb_true in A; subst t|
    destruct (bytes_eqb t (str "resource")) eqn:B; [apply bytes_eqb_true in B; subst t|
      destruct (bytes_eqb t (str "warcinfo")) eqn:D; [apply bytes_eqb_true in D; subst t|discriminate]]];
  intros [= <-]; cbn [N.eqb orb]; unfold IDX_F_METADATA, IDX_F_RESOURCE, IDX_F_WARCINFO; (split; [intros X; apply N.eqb_eq in X; eexists; split; [|exact X]; cbn; auto|]);
  intros (fl & [X|[X|[X|[]]]] & ->); injection X; intros; subst; try discriminate; reflexivity.
Qed.

Lemma known_type t : known_word t <-> exists u, dump_type t = Some u.
Proof.
  unfold known_word, dump_type. destruct t as [t|]; [|split; eauto]. split.
  - intros [<-|[<-|[<-|[]]]]; eexists; reflexivity.
  - intros (u & E). destruct (bytes_eqb t (str "metadata")) eqn:A; [apply bytes_eqb_true in A; subst t; cbn; auto|].
    destruct (bytes_eqb t (str "resource")) eqn:B; [apply bytes_eqb_true in B; subst t; cbn; auto|].
    destruct (bytes_eqb t (str "warcinfo")) eqn:D; [apply bytes_eqb_true in D; subst t; cbn; auto|discriminate].
Qed.

Lemma ideal_ent evs e : Forall ok_ev evs -> In e (ideal_evs evs) ->
  List.length (e_key e) = 24%nat /\ List.length (e_cont e) = 8%nat /\ e_flags e < 2 ^ 32.
Proof.
  induction evs as [|v evs IH]; intros F H; [contradiction|]. inversion F as [|? ? V F']; subst.
  destruct v as [key flags silo offset cont| |k|]; cbn [ideal_evs] in H; auto.
  destruct H as [<-|H]; auto. cbn [ideal e_key e_cont e_flags]. destruct V as (_ & V & _). rewrite !pad_length. auto.
Qed.

Lemma shows_all l : (forall e, In e l -> List.length (e_key e) = 24%nat /\ List.length (e_cont e) = 8%nat /\ e_flags e < 2 ^ 32) ->
  Forall2 shows l (map dump_line l).
Proof.
  induction l as [|e l IH]; intros H; cbn [map]; constructor.
  - destruct (H e (or_introl eq_refl)) as (A & B & D). apply dump_shows; auto.
  - apply IH. intros e' X. apply H. right. auto.
Qed.

Lemma Forall2_in_l {X Y} (P : X -> Y -> Prop) l l' x : Forall2 P l l' -> In x l -> exists y, In y l' /\ P x y.
Proof.
  intros H. induction H; intros HI; [destruct HI|]. destruct HI as [->|HI]; [exists y; split; [left|]; auto|].
  destruct (IHForall2 HI) as (z & ? & ?). exists z. split; [right|]; auto.
Qed.

(* From what the index reports to what is printed *)
Lemma dump_from st t args (P : option bytes -> list ixent -> Prop) : known_word t ->
  (forall q, In q (asks args) -> exists l, lookup st q = Ok l /\ P q l /\
    forall e, In e l -> List.length (e_key e) = 24%nat /\ List.length (e_cont e) = 8%nat /\ e_flags e < 2 ^ 32) ->
  exists ess ls, main_dumpindex st t args = Ok (Some (List.concat ls)) /\ Forall2 shows (List.concat ess) ls /\
    Forall2 (fun q es => exists l keep, lookup st q = Ok l /\ P q l /\ es = filter keep l /\ forall e, keep e = true <-> word_flag t e) (asks args) ess.
Proof.
  intros W LK. apply known_type in W. destruct W as (u & TU). unfold main_dumpindex. rewrite TU.
  assert (G : forall qs lss, (forall q, In q qs -> In q (asks args)) -> Forall2 (fun q l => lookup st q = Ok l) qs lss ->
    exists ess ls, List.concat (map dump_line (filter (pick u) (List.concat lss))) = List.concat ls /\ Forall2 shows (List.concat ess) ls /\
    Forall2 (fun q es => exists l keep, lookup st q = Ok l /\ P q l /\ es = filter keep l /\ forall e, keep e = true <-> word_flag t e) qs ess).
  { intros qs lss S F. induction F as [|q l qs lss H F IH].
    - exists [], []. repeat split; constructor.
    - destruct IH as (ess & ls & E & SH & F2); [intros; apply S; right; auto|].
      destruct (LK q) as (l' & EL & PL & WF); [apply S; left; auto|]. assert (l' = l) by congruence. subst l'.
      exists (filter (pick u) l :: ess), (map dump_line (filter (pick u) l) ++ ls). cbn [List.concat]. split; [|split].
      + rewrite filter_app, map_app, !concat_app, E. auto.
      + apply Forall2_app; auto. apply shows_all. intros e X. apply filter_In in X. apply WF, X.
      + constructor; auto. exists l, (pick u). do 3 (split; auto). intros e. apply word_pick. auto. }
  destruct args as [|a args].
  - destruct (LK None) as (l0 & E0 & _); [left; auto|]. destruct (iter_any (dumpindex_iter u) st None l0 [] E0) as (i & EI). rewrite run_dump in EI. cbn [snd app] in EI.
    rewrite EI. cbn [bind]. destruct (G [None] [l0]) as (ess & ls & E & S & J); auto.
    cbn [List.concat] in E. rewrite app_nil_r in E. exists ess, ls. rewrite E. auto.
  - set (as_ := a :: args) in *.
    destruct (dump_args_ok u st as_ []) as (lss & F2 & ->). { intros k X. destruct (LK (Some k)) as (l & E & _); [apply in_map; auto|eauto]. }
    cbn [bind app]. destruct (G (map Some as_) lss) as (ess & ls & E & S & J); auto.
    { clear - F2. induction F2; cbn [map]; constructor; auto. }
    exists ess, ls. rewrite E. auto.
Qed.

Lemma Forall2_weak {X Y} (P Q : X -> Y -> Prop) l l' : (forall x y, P x y -> Q x y) -> Forall2 P l l' -> Forall2 Q l l'.
Proof. intros H F. induction F; constructor; auto. Qed.

Lemma Forall2_one {X Y} (P : X -> Y -> Prop) x l : Forall2 P [x] l -> exists y, l = [y] /\ P x y.
Proof. intros F. inversion F as [|? y ? ? H F']. inversion F'. eauto. Qed.

Lemma dump_hist id_size sort_size evs t args :
  ok_conf id_size sort_size -> Forall ok_ev evs -> len (ideal_evs evs) < 2 ^ 38 -> known_word t -> Forall hexstr args ->
  exists y, sys_run id_size sort_size (mkSys ifs_empty []) evs = Ok y /\
    ((forall k, In k args -> start_clear (y_fs y) k /\ bucket_used (y_fs y) k) ->
     exists ess ls, main_dumpindex (y_fs y) t args = Ok (Some (List.concat ls)) /\ Forall2 shows (List.concat ess) ls /\
       Forall2 (fun q es => forall e, In e es <-> In e (ideal_evs evs) /\ asked q e /\ word_flag t e) (asks args) ess).
Proof.
  intros OC F N W HX. destruct (evs_visible id_size sort_size evs OC F N) as (y & l0 & R & E0 & H0 & _).
  exists y. split; auto. intros CL.
  destruct (dump_from (y_fs y) t args (fun q l => forall e, In e l <-> In e (ideal_evs evs) /\ asked q e) W) as (ess & ls & A & B & D).
  - intros q X. assert (Y : exists l, lookup (y_fs y) q = Ok l /\ forall e, In e l <-> In e (ideal_evs evs) /\ asked q e).
    { destruct q as [k|].
      - assert (I : In k args). { destruct args as [|a r]; [destruct X as [X|[]]; discriminate|]. unfold asks in X. apply in_map_iff in X. destruct X as (k' & [= <-] & I). auto. }
        rewrite Forall_forall in HX. destruct (lookup_evs id_size sort_size evs k OC F N (HX k I)) as (y' & R' & Q).
        assert (y' = y) by congruence. subst y'. destruct (CL k I). auto.
      - exists l0. split; auto. intros e. rewrite H0. cbn [asked]. tauto. }
    destruct Y as (l & E & Y). exists l. do 2 (split; auto). intros e I. apply Y in I. eapply ideal_ent; eauto. apply I.
  - exists ess, ls. do 2 (split; auto). eapply Forall2_weak; [|exact D]. intros q es (l & keep & _ & PL & -> & K) e. rewrite filter_In, PL, K. tauto.
Qed.

Lemma dump_usage st t args : ~ known_word t -> main_dumpindex st t args = Ok None.
Proof.
  intros H. unfold main_dumpindex. destruct (dump_type t) as [u|] eqn:E; auto. exfalso. apply H, known_type. eauto.
Qed.

(* An argument which is not made of hex digits *)
Lemma dump_abort st t k rest : known_word t -> ~ hexstr k -> main_dumpindex st t (k :: rest) = Abort.
Proof.
  intros W H. apply known_type in W. destruct W as (u & E). unfold main_dumpindex. rewrite E. cbn [dump_args].
  unfold IDX_Iter, iter_key. replace (forallb is_hex k) with false; [reflexivity|].
  symmetry. apply not_true_iff_false. intros X. apply H. apply forallb_hexstr. auto.
Qed.

(** * byid *)

Lemma filter_le {A} (g : A -> bool) l : (List.length (filter g l) <= List.length l)%nat.
Proof. induction l as [|a l IH]; cbn [filter List.length]; [lia|]. destruct (g a); cbn [List.length]; lia. Qed.

Lemma nodup_silos l : (forall n, NoDup (filter (fun e => e_silo e =? n) l)) -> NoDup l.
Proof.
  induction l as [|e l IH]; intros H; constructor.
  - intros X. specialize (H (e_silo e)). cbn [filter] in H. rewrite N.eqb_refl in H. inversion H; subst. apply H2. apply filter_In. split; auto. apply N.eqb_refl.
  - apply IH. intros n. specialize (H n). cbn [filter] in H. destruct (e_silo e =? n); [inversion H; auto|auto].
Qed.

Lemma hex_lower c c' : to_lower c = to_lower c' -> is_hex c' = true -> is_hex c = true.
Proof.
  unfold to_lower, is_upper, is_hex, is_digit. destruct ((65 <=? c) && (c <=? 90)) eqn:A, ((65 <=? c') && (c' <=? 90)) eqn:B; lia.
Qed.

Lemma hex_lower_eq f : forall id, hexstr id -> lower f = lower id -> hexstr f.
Proof.
  induction f as [|c f IH]; intros id H E; [constructor|]. destruct id as [|d id]; [discriminate|]. injection E as E1 E2. inversion H; subst.
  constructor; [eapply hex_lower; eauto|eapply IH; eauto].
Qed.

Section ById.
Variable C : conf.
Variable L : zlib.
Hypothesis CO : conf_ok C.
Hypothesis ZO : zlib_ok L.
Notation prefix := (c_prefix C).

Lemma silo_nodup n b es : silo_ok C L n b es -> NoDup es.
Proof.
  intros (w & l & es' & HL & _ & _ & _ & P & F). apply (Permutation_NoDup (Permutation_sym P)).
  pose proof (lay_sorted C L _ _ _ HL) as S. clear P. revert S es' F. generalize ((0, w) :: l). clear. intros m S.
  induction S as [|x m S IH X]; intros es' F; inversion F; subst; constructor; auto.
  intros Y. destruct (Forall2_in_r _ _ _ _ H3 Y) as (z & Hz & E). rewrite Forall_forall in X. specialize (X z Hz).
  destruct H1 as (_ & A & _), E as (_ & B & _). lia.
Qed.

Lemma idx_nodup x : reach C L x -> (forall j p, In (j, p) (wo_procs x) -> exists a, p = Ret a) -> NoDup (f_idx (wo_fs x)).
Proof.
  intros R AD. destruct (index_end C L CO ZO x R AD) as (A & B & Q). apply nodup_silos. intros n. fold (entries (wo_fs x) n).
  destruct (f_silo (wo_fs x) n) as [(b, w)|] eqn:F; [eapply silo_nodup; eauto|].
  destruct (entries (wo_fs x) n) as [|e es] eqn:E; [constructor|]. exfalso.
  assert (X : In e (entries (wo_fs x) n)) by (rewrite E; left; auto). apply filter_In in X. destruct X as (X & Y).
  destruct (A e X) as (wr & _ & _ & b & wb & a & r & z & Fs & _). apply N.eqb_eq in Y. congruence.
Qed.

(* One entry *)
Lemma byid_one s n o w e : in_archive C L s n o w e -> exists l, run (byid_iter C e) s = (s, inl l) /\ id_line w l.
Proof.
  intros (_ & EF & b & wr & a & r & z & F & -> & <- & RC). assert (EF' := EF). destruct EF' as (E1 & E2 & _ & (t & HT & _) & _).
  assert (W : wf_header (wr_hdr w)) by (destruct RC as (? & ? & _ & _ & _ & _ & ? & _); auto).
  exists (str "id " ++ h_id (wr_hdr w) ++ str " wt " ++ t ++ [10]). split; [|exists t; auto].
  unfold byid_iter. rewrite run_bind. cbn [run exec sys]. rewrite E1, F, E2.
  destruct (read_header C L CO a r z w RC) as (H & B & _ & _ & ER). rewrite ER. cbn [bindp lift].
  apply (sorted_get _ _ _ W) in HT. rewrite HT. reflexivity.
Qed.

Lemma byid_many s : forall es ps out n, map p_ent ps = es ->
  Forall (fun p => in_archive C L s (p_silo p) (p_off p) (p_rec p) (p_ent p)) ps -> n + len es <= 2 ^ 31 - 1 ->
  exists ls, run (byid_loop C es out n) s = (s, inl (out ++ List.concat ls, n + len es)) /\ Forall2 id_line (map p_rec ps) ls.
Proof.
  induction es as [|e es IH]; intros ps out n E F B; (destruct ps as [|p ps]; [|]); try discriminate.
  - exists []. cbn [byid_loop run List.concat]. rewrite len_nil, app_nil_r, N.add_0_r. split; [auto|constructor].
  - injection E as <- E. inversion F; subst. cbn [byid_loop]. rewrite len_cons in *. destruct (byid_one s _ _ _ _ H1) as (l & RL & IL).
    rewrite run_bind, RL. replace (2 ^ 31 - 1 <=? n) with false by (symmetry; apply N.leb_gt; lia).
    destruct (IH ps (out ++ l) (n + 1) eq_refl H2) as (ls & RR & FL); [lia|]. exists (l :: ls). rewrite RR. cbn [List.concat map]. rewrite <- app_assoc.
    split; [|constructor; auto]. do 3 f_equal. lia.
Qed.

Lemma frag_strip a f : frag prefix a f -> strip_prefix prefix a = f /\ forallb is_hex f = true.
Proof.
  intros (H & D). split; [|apply forallb_hexstr; auto]. unfold strip_prefix. destruct D as [->|(p & EP & ->)].
  - destruct (ncaseeq (List.length prefix) f prefix) eqn:Y; auto. exfalso.
    destruct (co_prefix C CO) as ((_ & _ & q & Q) & _). unfold ncaseeq in Y. apply caseeq_lower in Y. rewrite firstn_all in Y.
    assert (I : In 47 (lower prefix)). { rewrite Q. unfold lower. rewrite map_app. apply in_or_app. right. left. reflexivity. }
    rewrite <- Y in I. unfold lower in I. apply in_map_iff in I. destruct I as (c & E & I). unfold hexstr in H. rewrite Forall_forall in H.
    assert (X : In c f). { rewrite <- (firstn_skipn (List.length prefix) f). apply in_or_app. auto. }
    specialize (H c X). unfold to_lower, is_upper, is_hex, is_digit in *. destruct ((65 <=? c) && (c <=? 90)) eqn:U; lia.
  - assert (LP : List.length p = List.length prefix) by (apply (f_equal (@List.length N)) in EP; unfold lower in EP; rewrite !map_length in EP; auto).
    unfold ncaseeq. rewrite <- LP, firstn_app_len, skipn_app_len. rewrite LP, firstn_all.
    replace (caseeq p prefix) with true; auto. symmetry. apply caseeq_true. auto.
Qed.

Lemma frag_none a : no_frag prefix a -> forallb is_hex (strip_prefix prefix a) = false.
Proof.
  intros H. apply not_true_iff_false. intros X. apply forallb_hexstr in X. apply (H (strip_prefix prefix a)). split; auto.
  unfold strip_prefix. destruct (ncaseeq (List.length prefix) a prefix) eqn:Y; auto. right. exists (firstn (List.length prefix) a).
  split; [|symmetry; apply firstn_skipn]. unfold ncaseeq in Y. apply caseeq_lower in Y. rewrite Y, firstn_all. auto.
Qed.

Lemma asked_b k e : askedb k e = true <-> asked (Some k) e.
Proof.
  split; [apply askedb_asked|]. intros (r & E). unfold askedb. rewrite E. rewrite firstn_app_len. apply bytes_eqb_refl.
Qed.

Section Rest.
Variable s : fs.
Hypothesis A1 : forall e, In e (f_idx s) -> exists w, in_archive C L s (e_silo e) (e_off e) w e.
Hypothesis ND : NoDup (f_idx s).

Lemma parts_for es : (forall e, In e es -> In e (f_idx s)) -> exists ps, map p_ent ps = es /\
  Forall (fun p => in_archive C L s (p_silo p) (p_off p) (p_rec p) (p_ent p)) ps.
Proof.
  induction es as [|e es IH]; intros H; [exists []; split; [auto|constructor]|].
  destruct IH as (ps & E & F); [intros e' X; apply H; right; auto|]. destruct (A1 e (H e (or_introl eq_refl))) as (w & X).
  exists (mkPart (e_silo e) (e_off e) w e :: ps). cbn [map p_ent]. rewrite E. auto.
Qed.

Lemma records_for f : exists ps, map p_ent ps = filter (askedb f) (f_idx s) /\ its_records C L s f ps /\
  Forall (fun p => in_archive C L s (p_silo p) (p_off p) (p_rec p) (p_ent p)) ps.
Proof.
  destruct (parts_for (filter (askedb f) (f_idx s))) as (ps & E & F). { intros e X. apply filter_In in X. apply X. }
  exists ps. split; auto. split; auto. split; [rewrite E; apply NoDup_filter; auto|]. intros p. split.
  - intros X. split; [rewrite Forall_forall in F; auto|]. apply (in_map p_ent) in X. rewrite E in X. apply filter_In in X. apply asked_b, X.
  - intros (X & Y). assert (I : In (p_ent p) (map p_ent ps)). { rewrite E. apply filter_In. split; [apply X|apply asked_b; auto]. }
    apply in_map_iff in I. destruct I as (q & EQ & I). replace p with q; auto. rewrite Forall_forall in F. specialize (F q I).
    rewrite EQ in F. pose proof (same_rec C L CO _ _ _ _ _ _ _ _ X F) as ER. destruct X as (_ & (X1 & X2 & _) & _), F as (_ & (Y1 & Y2 & _) & _).
    destruct p as [p1 p2 p3 p4], q as [q1 q2 q3 q4]. cbn [p_silo p_off p_rec p_ent] in *. congruence.
Qed.

Lemma byid_args_ok : forall args fs rest out n, Forall2 (frag prefix) args fs -> n + len args * len (f_idx s) <= 2 ^ 31 - 1 ->
  exists pss ls, Forall2 (its_records C L s) fs pss /\ Forall2 id_line (map p_rec (List.concat pss)) ls /\
    run (byid_args C (args ++ rest) out n) s = run (byid_args C rest (out ++ List.concat ls) (n + len (List.concat pss))) s.
Proof.
  induction args as [|a args IH]; intros fs rest out n F B; inversion F; subst.
  - exists [], []. split; [constructor|]. split; [constructor|]. cbn. rewrite app_nil_r, N.add_0_r. auto.
  - destruct (frag_strip _ _ H1) as (ES & EH). destruct (records_for y) as (ps & EP & IR & FP).
    assert (LE : len (filter (askedb y) (f_idx s)) <= len (f_idx s)). { unfold len. pose proof (filter_le (askedb y) (f_idx s)). lia. }
    rewrite len_cons in B.
    destruct (byid_many s _ ps out n EP FP) as (ls & RL & FL); [lia|].
    destruct (IH l' rest (out ++ List.concat ls) (n + len (filter (askedb y) (f_idx s))) H3) as (pss & ls' & G1 & G2 & G3); [lia|].
    exists (ps :: pss), (ls ++ ls'). split; [constructor; auto|]. split; [cbn [List.concat]; rewrite map_app; apply Forall2_app; auto|].
    cbn [app byid_args]. cbv zeta. rewrite ES, EH. cbn [negb]. rewrite run_bind. cbn [run sys exec].
    rewrite run_bind, RL, G3. f_equal. f_equal; [rewrite concat_app, app_assoc; auto|]. cbn [List.concat]. rewrite len_app, <- EP. unfold len. rewrite map_length. lia.
Qed.

Lemma byid_good ok args fs : Forall2 (frag prefix) args fs -> len args * len (f_idx s) <= 2 ^ 31 - 1 ->
  exists pss ls, Forall2 (its_records C L s) fs pss /\ Forall2 id_line (map p_rec (List.concat pss)) ls /\
    run (main_byid C ok args) s = (s, inl (List.concat ls, if ok then 0 else N.min 255 (len (List.concat pss)))).
Proof.
  intros F B. destruct (byid_args_ok args fs [] [] 0 F) as (pss & ls & G1 & G2 & G3); [lia|]. exists pss, ls. split; auto. split; auto.
  unfold main_byid. rewrite run_bind. rewrite app_nil_r in G3. rewrite G3. cbn [byid_args run app]. rewrite N.add_0_l. do 3 f_equal. destruct ok; auto.
  destruct (len (List.concat pss) <? 256) eqn:E; [apply N.ltb_lt in E|apply N.ltb_ge in E]; lia.
Qed.

Lemma byid_bad ok args fs bad rest : Forall2 (frag prefix) args fs -> len args * len (f_idx s) <= 2 ^ 31 - 1 -> no_frag prefix bad ->
  exists pss ls, Forall2 (its_records C L s) fs pss /\ Forall2 id_line (map p_rec (List.concat pss)) ls /\
    run (main_byid C ok (args ++ bad :: rest)) s = (s, inl (List.concat ls, 1)).
Proof.
  intros F B NF. destruct (byid_args_ok args fs (bad :: rest) [] 0 F) as (pss & ls & G1 & G2 & G3); [lia|]. exists pss, ls. split; auto. split; auto.
  unfold main_byid. rewrite run_bind, G3. cbn [byid_args]. cbv zeta. apply frag_none in NF. rewrite NF. reflexivity.
Qed.
End Rest.

Lemma asked_begins n o w e f : entry_for n o w e -> len f <= 24 -> len f <= len (h_id (wr_hdr w)) -> (asked (Some f) e <-> begins f w).
Proof.
  intros (_ & _ & K & _) B1 B2. unfold asked, begins. rewrite K. unfold pad.
  assert (LL : List.length (lower f) = List.length f) by apply map_length.
  assert (LI : List.length (lower (h_id (wr_hdr w))) = List.length (h_id (wr_hdr w))) by apply map_length. unfold len in *.
  rewrite (firstn_all2 (lower f)) by lia. split.
  - intros (r & E). exists (skipn (List.length f) (lower (h_id (wr_hdr w)))). rewrite <- (firstn_skipn (List.length f) (lower (h_id _))) at 1. f_equal.
    assert (X := f_equal (firstn (List.length f)) E). rewrite firstn_firstn, Nat.min_l in X by lia. rewrite firstn_app in X.
    replace (List.length f - List.length (lower (h_id (wr_hdr w))))%nat with 0%nat in X by lia. rewrite app_nil_r in X. rewrite X, <- LL. apply firstn_app_len.
  - intros (r & E). rewrite E, <- app_assoc. exists (firstn (24 - List.length f) (r ++ repeat 48 24)). rewrite firstn_app, firstn_all2 by lia. f_equal. f_equal. lia.
Qed.

Lemma id_len s n o w e : in_archive C L s n o w e -> len (h_id (wr_hdr w)) = c_idsize C.
Proof. intros (_ & _ & b & wr & a & r & z & _ & _ & _ & (H & B & _ & _ & (_ & _ & N) & _)). exact N. Qed.

(* Identifiers begin with the digits *)
Lemma its_begin s f ps : its_records C L s f ps -> len f <= 24 -> len f <= c_idsize C -> forall p, In p ps <->
  in_archive C L s (p_silo p) (p_off p) (p_rec p) (p_ent p) /\ begins f (p_rec p).
Proof.
  intros (_ & H) B1 B2 p. rewrite H. split; intros (A & X); (split; [auto|]); pose proof A as (_ & EF & _); apply id_len in A;
    (eapply asked_begins; [exact EF|auto|lia|auto]).
Qed.

Theorem byid_end x ok args fs : reach C L x -> (forall j p, In (j, p) (wo_procs x) -> exists a, p = Ret a) ->
  Forall2 (frag prefix) args fs -> len args * len (f_idx (wo_fs x)) <= 2 ^ 31 - 1 ->
  exists pss ls, Forall2 (its_records C L (wo_fs x)) fs pss /\ Forall2 id_line (map p_rec (List.concat pss)) ls /\
    run (main_byid C ok args) (wo_fs x) = (wo_fs x, inl (List.concat ls, if ok then 0 else N.min 255 (len (List.concat pss)))).
Proof.
  intros R AD F B. destruct (index_end C L CO ZO x R AD) as (A1 & _ & _). apply byid_good; auto. apply idx_nodup; auto.
Qed.

Theorem byid_stop x ok args fs bad rest : reach C L x -> (forall j p, In (j, p) (wo_procs x) -> exists a, p = Ret a) ->
  Forall2 (frag prefix) args fs -> len args * len (f_idx (wo_fs x)) <= 2 ^ 31 - 1 -> no_frag prefix bad ->
  exists pss ls, Forall2 (its_records C L (wo_fs x)) fs pss /\ Forall2 id_line (map p_rec (List.concat pss)) ls /\
    run (main_byid C ok (args ++ bad :: rest)) (wo_fs x) = (wo_fs x, inl (List.concat ls, 1)).
Proof.
  intros R AD F B NF. destruct (index_end C L CO ZO x R AD) as (A1 & _ & _). eapply byid_bad; auto. apply idx_nodup; auto.
Qed.

(* What store has printed is listed, with its type *)
Theorem byid_stored x r b arg : reach C L x -> (forall j p, In (j, p) (wo_procs x) -> exists a, p = Ret a) ->
  In (JStore r, Ret (Some b)) (wo_procs x) -> len (f_idx (wo_fs x)) <= 2 ^ 31 - 1 ->
  (lower arg = lower b \/ lower (prefix ++ arg) = lower b) ->
  exists out n l w, run (main_byid C false [arg]) (wo_fs x) = (wo_fs x, inl (out, n)) /\ 0 < n /\
    (exists u v, out = u ++ l ++ v) /\ id_line w l /\ lower (prefix ++ h_id (wr_hdr w)) = lower b /\
    (has (wr_hdr w) "WARC-Type" (str "resource") \/ has (wr_hdr w) "WARC-Type" (str "metadata")).
Proof.
  intros R AD HI B HA. destruct (index_end C L CO ZO x R AD) as (A1 & _ & Q).
  destruct (segments C L CO ZO x r b R HI) as (id & -> & LI & HX & _ & OC).
  assert (G : exists n o w e, in_archive C L (wo_fs x) n o w e /\ lower (h_id (wr_hdr w)) = lower id /\
    (has (wr_hdr w) "WARC-Type" (str "resource") \/ has (wr_hdr w) "WARC-Type" (str "metadata"))).
  { destruct OC as [(p & rest & ST & _)|PR].
    - destruct (stored_first _ _ _ _ _ _ _ _ ST) as (A & PI). exists (p_silo p), (p_off p), (p_rec p), (p_ent p). split; auto. unfold p_id in PI. split; [congruence|].
      destruct ST as (_ & T & _). unfold req_type in T. destruct (r_meta r); auto.
    - destruct (PR Q) as (w & n & o & e & A & E & NW & SN). exists n, o, w, e. split; auto. split; auto.
      pose proof (sorted_in C L CO _ _ _ _ _ A) as S.
      destruct A as (_ & _ & b & wr & a & rr & z & _ & _ & _ & (H & B' & _ & _ & (_ & KD & _) & _)).
      destruct KD as [([T|(T & _)] & _)|[(T & _)|(T & (k & K1 & K2) & _)]]; [left; auto|right; auto|contradiction|]. exfalso.
      destruct SN as [SN|SN]; [apply hasnt_get in SN|apply has_get in SN; auto]; apply has_get in K2; auto; rewrite SN in K2; [discriminate|].
      assert (X : dec 1 = dec k) by (injection K2; auto). apply dec_inj in X. lia. }
  destruct G as (n & o & w & e & A & E & T).
  assert (FR : exists f, frag prefix arg f /\ lower f = lower id).
  { destruct HA as [HA|HA].
    - exists (skipn (List.length prefix) arg). unfold lower in HA. rewrite map_app in HA. fold (lower arg) (lower prefix) (lower id) in HA.
      assert (E1 : lower (firstn (List.length prefix) arg) = lower prefix /\ lower (skipn (List.length prefix) arg) = lower id).
      { apply app_eq_len. { unfold lower. rewrite !map_length, firstn_length. apply (f_equal (@List.length N)) in HA. rewrite app_length in HA. unfold lower in HA. rewrite !map_length in HA. lia. }
        rewrite <- HA. unfold lower. rewrite <- map_app, firstn_skipn. auto. }
      destruct E1 as (E1 & E2). split; auto. split; [|right; exists (firstn (List.length prefix) arg); split; [auto|symmetry; apply firstn_skipn]].
      apply (hex_lower_eq _ id); auto.
    - exists arg. unfold lower in HA. rewrite !map_app in HA. apply app_inv_head in HA. split; auto. split; [|auto]. apply (hex_lower_eq _ id); auto. }
  destruct FR as (f & FR & EF).
  destruct (byid_end x false [arg] [f] R AD) as (pss & ls & F1 & F2 & RU); [constructor; [auto|constructor]|rewrite len_cons, len_nil; lia|].
  inversion F1 as [|? ps ? pss' P1 P2]; subst. inversion P2; subst. cbn [List.concat] in *. rewrite app_nil_r in *.
  assert (IP : In (mkPart n o w e) ps). { apply P1. cbn [p_silo p_off p_rec p_ent]. split; auto. apply asked_b. eapply StoreGet.asked_self; [exact LI|apply A|congruence]. }
  assert (IL : exists l, In l ls /\ id_line w l). { eapply Forall2_in_l; [exact F2|]. change w with (p_rec (mkPart n o w e)). apply in_map. auto. }
  destruct IL as (l & IL & LW). exists (List.concat ls), (N.min 255 (len ps)), l, w. split; auto. split.
  - destruct ps; [destruct IP|]. rewrite len_cons. lia.
  - split; [|split; [auto|split; [|auto]]].
    + apply in_split in IL. destruct IL as (l1 & l2 & ->). exists (List.concat l1), (List.concat l2). rewrite concat_app. reflexivity.
    + unfold lower. rewrite !map_app. f_equal. exact E.
Qed.
End ById.

(** * The index of an archive *)

Lemma pad_pad n s : pad n (pad n s) = pad n s.
Proof.
  assert (E : lower (pad n s) = pad n s).
  { unfold pad, lower. rewrite <- firstn_map, map_app, map_map. f_equal. f_equal; [apply map_ext; apply to_lower_idem|].
    generalize n. clear. induction n as [|n IH]; cbn [repeat map]; [auto|]. rewrite IH. auto. }
  unfold pad at 1. rewrite E. rewrite firstn_app, pad_length, Nat.sub_diag, firstn_O, app_nil_r. apply firstn_all2. rewrite pad_length. lia.
Qed.

Lemma pad_hex n s : hexstr s -> hexstr (pad n s).
Proof.
  intros H. unfold pad. apply forall_firstn. apply Forall_app. split.
  - apply (hex_lower_eq _ s); auto. apply lower_lower.
  - apply Forall_forall. intros c X. apply repeat_spec in X. subst. reflexivity.
Qed.

Section Index.
Variable C : conf.
Variable L : zlib.
Hypothesis CO : conf_ok C.
Hypothesis ZO : zlib_ok L.

Definition ins (e : ixent) : iop := OInsert (e_key e) (e_flags e) (e_silo e) (e_off e) (Some (e_cont e)).

Lemma silo_place n b es e1 e2 : silo_ok C L n b es -> In e1 es -> In e2 es -> e_off e1 = e_off e2 -> e1 = e2.
Proof.
  intros (w & l & es' & HL & _ & _ & _ & P & F) I1 I2. apply (Permutation_in _ P) in I1, I2. clear P.
  pose proof (lay_sorted C L _ _ _ HL) as S. revert S es' F I1 I2. generalize ((0, w) :: l). clear. intros m S.
  induction S as [|x m S IH X]; intros es' F I1 I2 E; inversion F as [|? e ? r H1 H3]; subst; [destruct I1|]. rewrite Forall_forall in X.
  assert (G : forall e', In e' r -> e_off e' <> e_off e).
  { intros e' Y. destruct (Forall2_in_r _ _ _ _ H3 Y) as (z & Hz & E'). specialize (X z Hz). destruct H1 as (_ & A & _), E' as (_ & B & _). lia. }
  destruct I1 as [<-|I1], I2 as [<-|I2]; auto; [specialize (G e2 I2)|specialize (G e1 I1)|eapply IH; eauto]; congruence.
Qed.

Lemma id_hex s n o w e : in_archive C L s n o w e -> hexstr (h_id (wr_hdr w)).
Proof. intros (_ & _ & b & wr & a & r & z & _ & _ & _ & (? & ? & _ & _ & _ & _ & (W & _) & _)). exact W. Qed.

Lemma chain_cont s id data : forall ps k p, chain C L s id data k ps -> In p ps -> exists v, e_cont (p_ent p) = pad 8 v /\ hexstr v.
Proof.
  induction ps as [|q ps IH]; intros k p CH HI; [destruct HI|]. destruct HI as [E|H]; [subst q|].
  - cbn [chain] in CH. destruct CH as ((A & SN & _) & CH). destruct ps as [|q ps].
    + exists []. split; [|constructor]. destruct A as (_ & (_ & _ & _ & _ & E) & _). rewrite E; [reflexivity|]. right. eauto.
    + destruct CH as (_ & E & CH). exists (p_id q). split; auto. destruct CH as ((B & _) & _). eapply id_hex; eauto.
  - cbn [chain] in CH. destruct CH as (_ & CH). destruct ps as [|q' ps]; [destruct H|]. destruct CH as (_ & _ & CH). eapply IH; eauto.
Qed.

Lemma ent_real x e : reach C L x -> (forall j p, In (j, p) (wo_procs x) -> exists a, p = Ret a) -> In e (f_idx (wo_fs x)) ->
  ok_op (ins e) /\ ideal (e_key e) (e_flags e) (e_silo e) (e_off e) (Some (e_cont e)) = e.
Proof.
  intros R AD H. destruct (index_end C L CO ZO x R AD) as (A1 & A2 & _). destruct (A1 e H) as (w & A).
  pose proof (sorted_in C L CO _ _ _ _ _ A) as S.
  assert (HI : hexstr (h_id (wr_hdr w))) by (eapply id_hex; eauto).
  assert (CT : exists v, e_cont e = pad 8 v /\ hexstr v).
  { pose proof A as (_ & (E1 & E2 & _ & _ & E5) & _). destruct (hget (wr_hdr w) "WARC-Segment-Number") as [v|] eqn:SN.
    - apply has_get in SN; auto. destruct (ended_entire C L CO ZO x R AD _ _ _ _ _ A SN) as (typ & id & data & ps & p & LI & ST & L2 & IP & P1 & P2).
      assert (CH : chain C L (wo_fs x) id data 1 ps) by (destruct ST as (_ & ST); destruct ps as [|p1 [|p2 ps]]; [destruct ST|cbn in L2; lia|apply ST]).
      destruct (chain_cont _ _ _ _ _ _ CH IP) as (v' & EV & HV). exists v'. split; auto. rewrite <- EV. f_equal.
      pose proof (stored_in C L _ _ _ _ _ ST) as SI. rewrite Forall_forall in SI. specialize (SI p IP).
      destruct A as (_ & _ & b & wr & _ & _ & _ & F & _). destruct SI as (I' & (Q1 & Q2 & _) & _).
      eapply (silo_place (e_silo e)); [eapply A2; exact F|..]; [apply filter_In..|congruence]; (split; [auto|]); apply N.eqb_eq; congruence.
    - apply hasnt_get in SN. exists []. split; [|constructor]. rewrite E5; auto. }
  destruct CT as (v & EC & HV).
  pose proof A as (_ & (E1 & E2 & E3 & E4 & _) & b & wr & a & r & z & F & EB & EA & RC).
  split.
  - cbn [ok_op ins]. split; [rewrite E3; apply pad_hex; auto|]. split.
    { pose proof E4 as (t & T & _). rewrite (flags_val _ _ _ S T E4). pose proof (type_flag_small t).
      destruct (hget (wr_hdr w) "WARC-Segment-Number"); [destruct (bytes_eqb _ _), (hget (wr_hdr w) "WARC-Segment-Total-Length")|]; lia. }
    pose proof (reach_inv C L CO ZO x R) as I. destruct I as ((_ & I1 & _) & _). destruct (I1 _ _ _ F) as (I2 & I3). pose proof (co_max C CO). split; [auto|].
    split; [subst b; rewrite len_app in I2; lia|]. rewrite EC. apply pad_hex. auto.
  - destruct e as [k fl si of ct]. unfold ideal. cbn [e_key e_flags e_silo e_off e_cont] in *. rewrite E3, EC, !pad_pad. auto.
Qed.

Lemma index_real x : reach C L x -> (forall j p, In (j, p) (wo_procs x) -> exists a, p = Ret a) ->
  exists ops, Forall ok_op ops /\ Forall (fun o => o <> OResort) ops /\ ideal_ops ops = f_idx (wo_fs x).
Proof.
  intros R AD. pose proof (fun e => ent_real x e R AD) as H. exists (map ins (f_idx (wo_fs x))). induction (f_idx (wo_fs x)) as [|e l IH]; [repeat split; constructor|].
  destruct IH as (I1 & I2 & I3); [intros e' X; apply H; right; auto|]. destruct (H e (or_introl eq_refl)) as (H1 & H2).
  cbn [map]. split; [constructor; auto|]. split; [constructor; [discriminate|auto]|]. cbn [ins ideal_ops]. rewrite I3, H2. auto.
Qed.

Lemma dump_archive x id_size sort_size : ok_conf id_size sort_size -> reach C L x -> (forall j p, In (j, p) (wo_procs x) -> exists a, p = Ret a) ->
  exists ops st, Forall ok_op ops /\ Forall (fun o => o <> OResort) ops /\ ideal_ops ops = f_idx (wo_fs x) /\
    run_ops id_size sort_size ifs_empty ops = Ok st /\
    forall t args, known_word t -> Forall hexstr args -> exists ess ls, main_dumpindex st t args = Ok (Some (List.concat ls)) /\ Forall2 shows (List.concat ess) ls /\
      Forall2 (fun q es => NoDup es /\ forall e, In e es <-> (exists n o w, in_archive C L (wo_fs x) n o w e) /\ asked q e /\ word_flag t e) (asks args) ess.
Proof.
  intros OC R AD. destruct (index_real x R AD) as (ops & O1 & O2 & O3).
  destruct (lookup_unsorted id_size sort_size ops None OC O1 O2 Logic.I) as (st & l0 & RO & _).
  exists ops, st. do 4 (split; auto). intros t args W HX.
  destruct (index_end C L CO ZO x R AD) as (A1 & _ & _). pose proof (idx_nodup C L CO ZO x R AD) as ND.
  destruct (dump_from st t args (fun q l => NoDup l /\ forall e, In e l <-> In e (f_idx (wo_fs x)) /\ asked q e) W) as (ess & ls & A & B & D).
  - intros q X. assert (HQ : match q with Some k => hexstr k | None => True end).
    { destruct q as [k|]; auto. rewrite Forall_forall in HX. apply HX. destruct args as [|a r]; [destruct X as [X|[]]; discriminate|].
      unfold asks in X. apply in_map_iff in X. destruct X as (k' & [= <-] & I). auto. }
    destruct (lookup_unsorted id_size sort_size ops q OC O1 O2 HQ) as (st' & l & RO' & E & keep & K & K'). assert (st' = st) by congruence. subst st'.
    assert (Y : forall e, In e l <-> In e (f_idx (wo_fs x)) /\ asked q e). { intros e. rewrite K, filter_In, <- O3. split; intros (Y & Z); (split; [auto|]); apply K'; auto. }
    exists l. split; auto. split; [split; auto; rewrite K, O3; apply NoDup_filter; auto|]. intros e H. apply Y in H. destruct H as (H & _).
    destruct (ent_real x e R AD H) as ((_ & F & _) & EE). split; [|split; [|exact F]]; rewrite <- EE; cbn [ideal e_key e_cont]; apply pad_length.
  - exists ess, ls. split; auto. split; auto. eapply Forall2_weak; [|exact D]. intros q es (l & keep & _ & (NL & PL) & -> & K). split; [apply NoDup_filter; auto|].
    intros e. rewrite filter_In, PL, K. split.
    + intros ((X & Y) & Z). destruct (A1 e X) as (w & V). split; eauto.
    + intros ((n & o & w & Z) & Y). split; [|apply Y]. split; [apply Z|apply Y].
Qed.

(* An object in segments is not shown when -t is given *)
Lemma dump_segmented x nid : reach C L x -> (forall j p, In (j, p) (wo_procs x) -> exists a, p = Ret a) -> apart C (wo_fs x) ->
  (exists typ data p q rest, stored_as C L (wo_fs x) typ nid data (p :: q :: rest)) -> len nid = c_idsize C -> hexstr nid ->
  exists ops st l, Forall ok_op ops /\ ideal_ops ops = f_idx (wo_fs x) /\ run_ops 32 4096 ifs_empty ops = Ok st /\
    main_dumpindex st None [nid] = Ok (Some l) /\ l <> [] /\
    forall w, known_word (Some w) -> main_dumpindex st (Some w) [nid] = Ok (Some []).
Proof.
  intros R AD AP (typ & data & p & q & rest & ST) LI HX.
  destruct (dump_archive x 32 4096) as (ops & st & O1 & _ & O3 & RO & DU); auto. { split; [lia|]. split; [lia|reflexivity]. }
  destruct (stored_first _ _ _ _ _ _ _ _ ST) as (A & PI).
  assert (AK : asked (Some nid) (p_ent p)). { apply asked_b. eapply StoreGet.asked_self; [exact LI|apply A|unfold p_id in PI; congruence]. }
  destruct (DU None [nid]) as (ess & ls & D1 & D2 & D3); [exact Logic.I|constructor; [auto|constructor]|]. cbn [asks map] in D3.
  apply Forall2_one in D3. destruct D3 as (es & -> & _ & D4). cbn [List.concat] in D2. rewrite app_nil_r in D2.
  exists ops, st, (List.concat ls). do 4 (split; auto). split.
  - assert (X : In (p_ent p) es). { apply D4. split; [eauto|]. split; [auto|exact Logic.I]. }
    destruct (Forall2_in_l _ _ _ _ D2 X) as (l & Hl & SH). apply shows_nonempty in SH. intros E. apply in_split in Hl. destruct Hl as (l1 & l2 & ->).
    rewrite concat_app in E. apply app_eq_nil in E. destruct E as (_ & E). cbn [List.concat] in E. apply app_eq_nil in E. apply SH, E.
  - intros w W. destruct (DU (Some w) [nid]) as (ess' & ls' & F1 & F2 & F3); [auto|constructor; [auto|constructor]|]. cbn [asks map] in F3.
    apply Forall2_one in F3. destruct F3 as (es' & -> & _ & F4). cbn [List.concat] in F2. rewrite app_nil_r in F2. rewrite F1. do 2 f_equal. destruct F2 as [|e l es'' ls'' X Y]; [reflexivity|]. exfalso.
    assert (I : In e (e :: es'')) by (left; auto). apply F4 in I. destruct I as ((n & o & w' & IE) & AE & (fl & IF & EF)).
    assert (e = p_ent p). { destruct AP as (AP & _). apply (AP nid); auto; [apply IE|apply A]. } subst e.
    destruct ST as (_ & _ & CH). destruct (next_flags C L CO _ _ _ _ _ _ _ CH) as (FS & _). rewrite EF in FS.
    destruct IF as [E|[E|[E|[]]]]; injection E as _ E; subst fl; discriminate FS.
Qed.
End Index.

(** * After housekeeping *)
Lemma dump_sorted id_size sort_size ops t : ok_conf id_size sort_size -> Forall ok_op ops -> len (ideal_ops ops) < 2 ^ 38 -> known_word t ->
  exists st st' es ls, run_ops id_size sort_size ifs_empty ops = Ok st /\ IDX_Resort sort_size st = Ok st' /\
    main_dumpindex st' t [] = Ok (Some (List.concat ls)) /\ Forall2 shows es ls /\ StronglySorted key_le es /\
    forall e, In e es <-> In e (ideal_ops ops) /\ word_flag t e.
Proof.
  intros OC F N W. destruct (resort_hist id_size sort_size ops OC F N) as (st & st' & l & R1 & R2 & EL & HL & SO & _).
  destruct (dump_from st' t [] (fun q l' => l' = l) W) as (ess & ls & A & B & D).
  - intros q [<-|[]]. exists l. do 2 (split; auto). intros e I. apply HL in I. revert I. clear - F. induction F as [|o ops H F IH]; intros I; [contradiction|].
    destruct o as [key flags silo offset cont|]; cbn [ideal_ops] in I; auto.
    destruct I as [<-|I]; auto. cbn [ideal e_key e_cont e_flags]. destruct H as (_ & V & _). rewrite !pad_length. auto.
  - apply Forall2_one in D. destruct D as (es & -> & l' & keep & _ & -> & -> & K). cbn [List.concat] in B. rewrite app_nil_r in B.
    exists st, st', (filter keep l), ls. split; auto. split; auto. split; auto. split; auto. split; [apply sorted_filter; auto|].
    intros e. rewrite filter_In, HL, K. tauto.
Qed.
