(* A store which runs alone succeeds, in however many segments. *)
From Coq Require Import String Permutation.
From Coq Require Import ZifyBool ZifyNat ZifyN.
From Verif Require Import Base RoomSpec BaseLemmas ListLemmas IndexModel IndexSpec HeaderModel HeaderSpec HeaderProofs
  InflateSpec InflateProofs GzipModel GzipSpec GzipProofs ProgModel StoreModel StoreSpec StoreSysModel StoreWp StoreCalls StoreSys StoreHdr
  StoreWrite StoreCommit StoreJob StoreMain StoreGet StoreAgain LiveSpec LiveMain BigSpec.
Open Scope string_scope.
Open Scope list_scope.
Open Scope N_scope.

(** * Numbers *)

Lemma dec_upto n k : n < 10 ^ k -> len (dec n) <= N.max k 1.
Proof.
  intros H. unfold dec.
  assert (G : forall f m k, m < 10 ^ k -> len (dec_aux f m []) <= N.max k 1).
  { clear. induction f as [|f IH]; intros m k Hm; cbn [dec_aux]; [rewrite len_nil; lia|].
    destruct (m <? 10) eqn:E; [rewrite len_cons, len_nil; lia|]. rewrite dec_aux_app, len_app, len_cons, len_nil.
    destruct (N.eq_dec k 0) as [->|K]; [rewrite N.pow_0_r in Hm; lia|].
    destruct (N.eq_dec k 1) as [->|K1]; [rewrite N.pow_1_r in Hm; lia|].
    assert (m / 10 < 10 ^ (k - 1)).
    { apply N.div_lt_upper_bound; [lia|]. replace (10 * 10 ^ (k - 1)) with (10 ^ k); auto.
      rewrite <- N.pow_succ_r'. f_equal. lia. }
    specialize (IH (m / 10) (k - 1) H). lia. }
  apply G. auto.
Qed.

Lemma dec_below n : n < 10 ^ len (dec n).
Proof. rewrite <- (undec_dec n) at 1. rewrite <- dec_value_undec. apply dec_value_bound. apply dec_digits. Qed.

Lemma dec_pos n : 1 <= len (dec n).
Proof. pose proof (dec_nonempty n). destruct (dec n); [congruence|rewrite len_cons; lia]. Qed.

Lemma dec_ten n m : n < 10 * m -> len (dec n) <= len (dec m) + 1.
Proof.
  intros H. pose proof (dec_below m) as B. pose proof (dec_upto n (len (dec m) + 1)) as U. pose proof (dec_pos m).
  rewrite N.pow_add_r, N.pow_1_r in U. specialize (U ltac:(lia)). lia.
Qed.

Lemma dec_mono n m : n <= m -> len (dec n) <= len (dec m).
Proof.
  intros H. pose proof (dec_below m) as B. pose proof (dec_upto n (len (dec m)) ltac:(lia)) as U. pose proof (dec_pos m). lia.
Qed.

Lemma pigeon (l : list N) m k : (List.length l < k)%nat -> exists i, i < N.of_nat k /\ ~ In (m + i) l.
Proof.
  intros H. destruct (find (fun i => negb (existsb (N.eqb (m + i)) l)) (map N.of_nat (seq 0 k))) as [i|] eqn:F.
  - apply find_some in F. destruct F as (F1 & F2). exists i. split.
    + apply in_map_iff in F1. destruct F1 as (x & <- & F1). apply in_seq in F1. lia.
    + intros X. apply negb_true_iff in F2. assert (Y : existsb (N.eqb (m + i)) l = true); [|congruence].
      apply existsb_exists. exists (m + i). split; [auto|apply N.eqb_refl].
  - exfalso. assert (I : incl (map (fun x => m + N.of_nat x) (seq 0 k)) l).
    { intros y Hy. apply in_map_iff in Hy. destruct Hy as (x & <- & Hx).
      pose proof (find_none _ _ F (N.of_nat x) (in_map N.of_nat _ _ Hx)) as Y. apply negb_false_iff in Y.
      apply existsb_exists in Y. destruct Y as (z & Y1 & Y2). apply N.eqb_eq in Y2. congruence. }
    apply NoDup_incl_length in I.
    + rewrite map_length, seq_length in I. lia.
    + apply FinFun.Injective_map_NoDup; [|apply seq_NoDup]. intros a b E. lia.
Qed.

(** * The file of silo sizes stays as it is *)

Definition nocache (c : call) : Prop := match c with CWriteCache _ _ => False | _ => True end.

Lemma keep_cache {A} (p : prog A) s Q : allcalls nocache p -> alive p s Q -> alive p s (fun a s' => Q a s' /\ f_cache s' = f_cache s).
Proof.
  intros H (a & s' & E & HQ). exists a, s'. split; [auto|]. split; [auto|].
  replace s' with (fst (run p s)) by (rewrite E; auto). apply (ac_run nocache p (fun t => f_cache t = f_cache s) H); [|auto].
  intros c t Hc Ht. destruct c; cbn [nocache exec fst] in *; try contradiction; auto; [destruct (f_hold t n)|destruct (f_silo t n)|destruct (f_silo t n) as [[b w]|]]; auto.
Qed.

Section Nc.
Variable C : conf.
Variable L : zlib.
Notation nc := (allcalls nocache).
Lemma hset_nc h n v : nc (hset h n v).
Proof. unfold hset. apply ac_lift. Qed.
Lemma hser_nc l h : nc (hser C L l h).
Proof. unfold hser. apply ac_lift. Qed.
Lemma store_nc sl d : nc (Wsilo_Store sl d).
Proof. unfold Wsilo_Store. ac. Qed.
Lemma put_nc sl d : nc (put C sl d).
Proof. unfold put. pose proof store_nc. ac. Qed.
Lemma winfo_nc sl n : nc (Warcinfo_New C L sl n).
Proof. unfold Warcinfo_New. pose proof hset_nc. pose proof hser_nc. pose proof put_nc. ac. Qed.
Lemma wnew_nc n : nc (Wsilo_New C L n).
Proof. unfold Wsilo_New. pose proof winfo_nc. ac. Qed.
Lemma next_nc fuel : forall n, nc (next_loop C L fuel n).
Proof. pose proof wnew_nc. induction fuel; intros; cbn [next_loop]; ac. Qed.
Lemma wnext_nc aa : nc (Wsilo_Next C L aa).
Proof. unfold Wsilo_Next, ReadCache. pose proof next_nc. ac. Qed.
Lemma header_nc sl hd pad : nc (Wsilo_Header C L sl hd pad).
Proof. unfold Wsilo_Header. pose proof hser_nc. pose proof store_nc. ac. Qed.
Lemma newseg_nc aa sj : nc (segjob_newseg C L aa sj).
Proof. unfold segjob_newseg. pose proof wnext_nc. pose proof next_nc. pose proof header_nc. pose proof hset_nc. ac. Qed.
Lemma finishseg_nc sj sg : nc (segjob_finishseg C L sj sg).
Proof. unfold segjob_finishseg, Wsilo_Finish. pose proof hset_nc. ac. Qed.
Lemma deflate_nc sj sg o f : nc (segjob_deflate L sj sg o f).
Proof. unfold segjob_deflate. pose proof store_nc. ac. Qed.
End Nc.

Section Big.
Variable C : conf.
Variable L : zlib.
Hypothesis CO : conf_ok C.
Hypothesis ZO : zlib_ok L.
Hypothesis ZL : zlib_live L.
Hypothesis ZS : zlib_steer L.
Notation prefix := (c_prefix C).
Variable s0 : fs.
Hypothesis AO : archive_ok C L s0.
Hypothesis DT : date_ok (f_clock s0).
Hypothesis QU : at_rest s0.
Variable DATA : bytes.
Notation D := (len DATA).
Hypothesis FIT : forall n, n < 2 ^ 32 -> len (warcinfo_body C (c_base C n)) <= 2 ^ 19 /\
  2 * len (warcinfo_body C (c_base C n)) + 8 * 0 + 12000 <= c_max C.
Variables (m0 k0 : N).
Hypothesis NL1 : m0 + k0 <= 2 ^ 32 - 1.
Hypothesis NL2 : m0 + k0 <= N.of_nat (c_fuel C).
Hypothesis NL3 : k0 < 2 ^ 31 - 1.
Hypothesis NL4 : forall i, i < k0 -> f_silo s0 (m0 + i) = None.
Hypothesis NL5 : D < 300 * k0.
Hypothesis SZ2 : D < 2 ^ 62.
(* something all segments have *)
Variable PS : bytes -> Prop.
Variable Rmin : N.
Hypothesis RM4 : 4000 <= Rmin.
Hypothesis RFIT : forall n, n < 2 ^ 32 -> 2 * len (warcinfo_body C (c_base C n)) + 8000 + Rmin <= c_max C.
Hypothesis SZ : forall R z a d b o fl, steered L R z d o fl -> Rmin <= R <= c_max C -> DATA = a ++ d ++ b -> PS d.
Variable typ : bytes.
Variable refo : option bytes.
Hypothesis TY : typ = str "resource" \/ typ = str "metadata" /\ exists ref, refo = Some ref.
Variable kz : N.
Hypothesis KZ : forall t, is_bytes t -> 0 < len t <= 4096 -> len (z_gzip L 0 t) = len t + kz.

Notation held := (LiveMain.held s0).
Notation still := (LiveMain.still s0).
Notation open_at := (LiveMain.open_at C s0).
Notation idlen := (LiveMain.idlen C).

(* the beginning of the object *)
Definition start (tk : bytes) : Prop := exists b, DATA = tk ++ b.
Lemma start_len tk : start tk -> len tk <= D.
Proof. intros (b & E). rewrite E, len_app. apply N.le_add_r. Qed.
Lemma start_app a b : start (a ++ b) -> start a.
Proof. intros (c & E). exists (b ++ c). rewrite E, app_assoc. auto. Qed.

Definition ctype (i : N) : bytes := if i =? 1 then typ else str "continuation".
Definition cnum (i : N) : option bytes := if i =? 1 then None else Some (dec i).
Definition origin (h : header) (i : N) : Prop := if i =? 1 then True
  else exists v, hget h "WARC-Segment-Origin-ID" = Some v /\ len v = len prefix + c_idsize C + 2.

(* the header of a segment *)
Definition chd (i : N) (h : header) : Prop := hgood h /\ idlen h /\ hget h "WARC-Type" = Some (ctype i) /\ hget h "WARC-Refers-To" = refo /\
  hget h "z" = None /\ hget h "WARC-Segment-Number" = cnum i /\ origin h i /\ hget h "WARC-Payload-Digest" = None /\
  hget h "WARC-Segment-Total-Length" = None.
(* before its end *)
Definition ohd (i : N) (h : header) : Prop := chd i h /\ hget h "WARC-Block-Digest" = Some (str "sha256:" ++ z_sha L []) /\
  hget h "Content-Length" = Some (str "00" ++ dec (c_max C)) /\ hlen prefix h <= 2800.

(* room kept for fields not yet known *)
Definition kept (b i : N) : N := if i =? 1 then 118 else 29 + len (dec (b + c_max C)).
Definition slack (b i : N) (d : bytes) : N := kept b i + 8 + len (dec (c_max C)) - len (dec (len d)).

(* a segment which is complete *)
Definition seg_at (H : N -> option bytes) (q : N) (sg : segment) : Prop := exists hb idx len0 st sl wid,
  hget (sg_hdr sg) "z" = None /\ hgood (sg_hdr sg) /\ idlen (sg_hdr sg) /\
  H (w_no (sg_silo sg)) = Some hb /\ f_silo s0 (w_no (sg_silo sg)) = None /\ sl = q /\ hlen prefix (sg_hdr sg) + sl <= 3000 /\
  sg_silo sg = mkW (w_no (sg_silo sg)) idx len0 st (hlen prefix (sg_hdr sg) + kz + sl) false wid /\
  len hb = len0 /\ st + (hlen prefix (sg_hdr sg) + kz + sl) <= len0.

Definition cid (i : N) (h : header) (d : bytes) : Prop := exists x, h_id h = firstn (N.to_nat (c_idsize C)) (z_sha L x) /\
  (ctype i = str "metadata" -> exists ref, refo = Some ref /\ x = ref ++ [10] ++ z_sha L d ++ [10]) /\
  (ctype i <> str "metadata" -> x = d).

Fixpoint dl (H : N -> option bytes) (b i : N) (sgs : list segment) (ds : list bytes) : Prop :=
  match sgs, ds with
  | [], [] => True
  | sg :: r, d :: rd => (sg_no sg = i /\ chd i (sg_hdr sg) /\ cid i (sg_hdr sg) d /\ seg_at H (slack b i d) sg /\ PS d) /\ dl H (b + len d) (i + 1) r rd
  | _, _ => False
  end.

Lemma dl_len H sgs : forall b i ds, dl H b i sgs ds -> List.length sgs = List.length ds.
Proof. induction sgs as [|sg r IH]; intros b i [|d rd] X; cbn [dl List.length] in *; try tauto. f_equal. eapply IH. apply X. Qed.

Lemma dl_app H sgs : forall b i ds sg d, dl H b i sgs ds -> 
  dl H (b + len (List.concat ds)) (i + N.of_nat (List.length sgs)) [sg] [d] -> dl H b i (sgs ++ [sg]) (ds ++ [d]).
Proof.
  induction sgs as [|a r IH]; intros b i [|e rd] sg d X Y; cbn [dl List.length app List.concat] in *; try tauto.
  - replace (i + N.of_nat 0) with i in Y by lia. replace (b + len []) with b in Y by (cbn; lia). exact Y.
  - split; [apply X|]. apply IH; [apply X|]. replace (i + 1 + N.of_nat (List.length r)) with (i + N.of_nat (S (List.length r))) by lia.
    rewrite len_app in Y. replace (b + len e + len (List.concat rd)) with (b + (len e + len (List.concat rd))) by lia. exact Y.
Qed.

Lemma dl_weak H H' sgs : forall b i ds, (forall n, In n (silos sgs) -> H' n = H n) -> dl H b i sgs ds -> dl H' b i sgs ds.
Proof.
  induction sgs as [|a r IH]; intros b i [|e rd] E X; cbn [dl] in *; try tauto. destruct X as ((X1 & X2 & X3 & X4 & X6) & X5). split.
  - split; [auto|]. split; [auto|]. split; [auto|]. split; [|auto]. unfold seg_at in *. rewrite E by (left; auto). exact X4.
  - apply IH; auto. intros n Hn. apply E. right. auto.
Qed.

Lemma dl_some H sgs n : forall b i ds, dl H b i sgs ds -> In n (silos sgs) -> H n <> None.
Proof.
  induction sgs as [|a r IH]; intros b i [|e rd] X I; cbn [dl] in *; try tauto; try contradiction. destruct X as ((_ & _ & _ & X & _) & Y).
  destruct I as [<-|I]; [|eapply IH; eauto]. destruct X as (hb & _ & _ & _ & _ & _ & _ & _ & _ & E & _). congruence.
Qed.

(* between segments *)
Definition idle (s : fs) (sj : segjob L) (tk : bytes) (ds : list bytes) : Prop := exists H,
  sj_cur L sj = None /\ sj_in L sj = [] /\ sj_nseg L sj = N.of_nat (List.length (sj_done L sj)) /\ base C typ refo (sj_hdr L sj) /\
  (hget (sj_hdr L sj) "WARC-Segment-Number" = None /\ hget (sj_hdr L sj) "WARC-Segment-Origin-ID" = None /\
   hget (sj_hdr L sj) "WARC-Payload-Digest" = None /\ hget (sj_hdr L sj) "WARC-Segment-Total-Length" = None) /\
  sj_ident L sj = None /\ sj_pay L sj = tk /\ sj_size L sj = len tk /\ tk = List.concat ds /\
  still s /\ f_cache s = f_cache s0 /\ (forall n, f_hold s n = H n) /\
  dl H 0 1 (sj_done L sj) ds /\ NoDup (silos (sj_done L sj)) /\ (forall n, H n <> None -> In n (silos (sj_done L sj))).

(* within one *)
Definition busy (s : fs) (sj : segjob L) (tk : bytes) : Prop := exists H sg out hb R ds cur pd,
  sj_cur L sj = Some sg /\ sj_in L sj = [] /\ sj_nseg L sj = N.of_nat (S (List.length (sj_done L sj))) /\ base C typ refo (sj_hdr L sj) /\
  (hget (sj_hdr L sj) "WARC-Segment-Number" = None /\ hget (sj_hdr L sj) "WARC-Segment-Origin-ID" = None /\
   hget (sj_hdr L sj) "WARC-Payload-Digest" = None /\ hget (sj_hdr L sj) "WARC-Segment-Total-Length" = None) /\
  sj_ident L sj = None /\ sj_pay L sj = tk /\ sj_size L sj = len tk /\ tk = List.concat ds ++ cur /\
  f_cache s = f_cache s0 /\
  dl H 0 1 (sj_done L sj) ds /\ NoDup (silos (sj_done L sj)) /\ (forall n, H n <> None -> In n (silos (sj_done L sj))) /\
  Forall (fun d => 300 <= len d) ds /\
  sg_no sg = sj_nseg L sj /\ ohd (sg_no sg) (sg_hdr sg) /\ sg_size sg = len cur /\ sj_seg L sj = cur /\
  held H s (w_no (sg_silo sg)) hb /\ open_at H kz pd (sg_silo sg) (sg_hdr sg) out hb /\ pd = kept (len (List.concat ds)) (sg_no sg) + 6 /\
  R + len hb = c_max C + len out /\ Rmin <= R /\ steered L R (sj_z L sj) cur out (sj_flag L sj).

Lemma steered_room R s d o fl : 4000 <= R -> steered L R s d o fl -> len o + 24 < R.
Proof.
  intros HR S. induction S as [|s d o fl i av s' out S IH A1 A2 A3 A4 E]; [rewrite len_nil; lia|].
  destruct (zs_call L ZS R s d o fl i av HR S A1 A2 A3 A4) as (s2 & out2 & E2 & B). rewrite E in E2. injection E2 as <- <-. rewrite len_app. lia.
Qed.

Lemma steered_zran R s d o fl : steered L R s d o fl -> zran L s d o /\ (fl = ZNone \/ fl = ZPartial).
Proof.
  intros S. induction S as [|s d o fl i av s' out S (IH1 & IH2) A1 A2 A3 A4 E]; [split; [constructor|auto]|].
  assert (FL : (if av <? 131072 then ZPartial else fl) = ZNone \/ (if av <? 131072 then ZPartial else fl) = ZPartial) by (destruct (_ <? _); auto).
  split; [|exact FL]. pose proof (zran_call L s d o i av _ s' (len i) out IH1 FL E) as Z.
  rewrite firstn_all2 in Z by (unfold len; lia). exact Z.
Qed.

Definition space (R : N) (out : bytes) : N := N.min BUFLEN (R - len out).

Lemma space_at H pd sl h out hb R : open_at H kz pd sl h out hb -> R + len hb = c_max C + len out -> len out + 24 < R ->
  Wsilo_GetSpace C sl = Z.of_N (space R out) /\ 24 < space R out /\ space R out <= BUFLEN.
Proof.
  intros OP ER LR. destruct (open_w _ _ _ _ _ _ _ _ _ OP) as (WL & WB). unfold Wsilo_GetSpace, space. rewrite WL, WB. unfold BUFLEN.
  destruct (_ <? _)%Z eqn:X; lia.
Qed.

Ltac hst H5 := match goal with
  | |- alive (bindp (hset ?h ?n ?v) _) _ _ =>
    let h' := fresh "h" in let E := fresh "E" in let G := fresh "G" in let I := fresh "I" in
    let GG := fresh "GG" in let LL := fresh "LL" in
    destruct (H5 prefix h n v) as (h' & E & G & I & GG & LL);
    [auto | reflexivity | auto | auto .. | rewrite E; cbn [bindp]; clear E; unfold Header_Len in LL; rewrite ?len_str in LL;
      cbn [String.length] in LL]
  end.

(** * A new segment *)

Lemma left_for H sgs b i ds : dl H b i sgs ds -> (forall n, H n <> None -> In n (silos sgs)) -> Forall (fun d => 300 <= len d) ds -> len (List.concat ds) <= D ->
  N.of_nat (List.length sgs) < k0 /\ exists m, m < 2 ^ 32 - 1 /\ f_silo s0 m = None /\ H m = None /\ m < N.of_nat (c_fuel C).
Proof.
  intros HD HS FA LD. assert (K : N.of_nat (List.length sgs) < k0).
  { rewrite (dl_len _ _ _ _ _ HD). assert (X : 300 * N.of_nat (List.length ds) <= len (List.concat ds)).
    { clear - FA. induction FA as [|d ds H FA IH]; [cbn; lia|]. cbn [List.concat List.length]. rewrite len_app. lia. }
    lia. }
  split; [auto|]. destruct (pigeon (silos sgs) m0 (N.to_nat k0)) as (j & J1 & J2); [unfold silos; rewrite map_length; lia|].
  exists (m0 + j). split; [lia|]. split; [apply NL4; lia|]. split; [|lia].
  destruct (H (m0 + j)) eqn:E; [|auto]. exfalso. apply J2. apply HS. congruence.
Qed.

Lemma newseg_big s aa sj tk ds : idle s sj tk ds -> Forall (fun d => 300 <= len d) ds -> start tk -> cache_ok C s0 aa ->
  alive (segjob_newseg C L aa sj) s (fun x s' => cache_ok C s0 (fst x) /\ busy s' (snd x) tk /\ sj_seg L (snd x) = [] /\
    exists sg, sj_cur L (snd x) = Some sg /\ (4000 <= Wsilo_GetSpace C (sg_silo sg))%Z).
Proof.
  intros (H & I1 & I2 & I3 & BA & (B7 & B8 & B9 & B10) & I5 & I6 & I7 & I8 & I9 & I10 & I11 & I12 & I13 & I14) FA ST CA.
  pose proof (start_len _ ST) as LD. destruct (left_for H _ 0 1 ds I12 I14 FA ltac:(congruence)) as (NS & LEFT).
  pose proof BA as (B1 & B2 & B3 & B4 & B5 & B6 & B11 & B12).
  eapply al_weak; [apply keep_cache with (Q := fun x s' => cache_ok C s0 (fst x) /\ exists h sl hb pd,
     ohd (sj_nseg L sj + 1) h /\ held H s' (w_no sl) hb /\ open_at H kz pd sl h [] hb /\ pd = kept (sj_size L sj) (sj_nseg L sj + 1) + 6 /\ pd <= 124 /\
     snd x = mkJ L (sj_hdr L sj) (sj_ident L sj) (sj_nseg L sj + 1) (sj_done L sj) (Some (mkS (sj_nseg L sj + 1) h sl 0))
              (sj_pay L sj) [] (sj_size L sj) (z_init L) [] ZNone); [apply newseg_nc|]|].
  - unfold segjob_newseg. replace (2 ^ 31 - 1 <=? sj_nseg L sj) with false by lia. cbv iota zeta. set (i := sj_nseg L sj + 1).
    rewrite clone_eq. pose proof (goodval_sha L ZO []) as GS. pose proof (len_sha L ZO []) as LS. hst hset_new.
    assert (GC : goodval (str "00" ++ dec (c_max C))) by (apply goodval_app; [apply goodb_val; reflexivity|apply goodval_dec]).
    assert (N1 : hget h "Content-Length" = None) by (rewrite GG; names; auto). hst hset_new.
    pose proof (co_max C CO) as MX. pose proof (dec_len (c_max C) ltac:(lia)) as DL. pose proof (dec_pos (c_max C)) as DP.
    rewrite len_str_app, LS in LL. rewrite len_str_app in LL0. cbn [String.length] in *.
    assert (ID0 : idlen h0) by (unfold LiveMain.idlen; rewrite I0, I; exact B2).
    eapply al_bind with (Q := fun x s' => s' = s /\ ohd i (fst x) /\ snd x = kept (sj_size L sj) i /\ snd x <= 118).
    + destruct (i =? 1) eqn:EI.
      * apply al_ret. cbn [fst snd]. split; [auto|]. split.
        { unfold ohd, chd, ctype, cnum, origin. rewrite EI. split; [|split; [rewrite GG0; names; rewrite GG; names; auto|split; [rewrite GG0; names; auto|lia]]].
          repeat (split; [solve [auto | rewrite GG0; names; rewrite GG; names; auto]|]). rewrite GG0; names; rewrite GG; names; auto. }
        { unfold kept. rewrite EI. unfold Header_Len. rewrite !len_str_app, !len_str, LS. cbn [String.length]. lia. }
      * pose proof (goodval_dec i) as GI. assert (N2 : hget h0 "WARC-Segment-Number" = None) by (rewrite GG0; names; rewrite GG; names; auto). hst hset_new.
        assert (GT : goodval (str "continuation")) by (apply goodb_val; reflexivity).
        assert (N3 : hget h1 "WARC-Type" = Some typ) by (rewrite GG1; names; rewrite GG0; names; rewrite GG; names; auto).
        hst hset_ret. pose proof (dec_len i ltac:(lia)) as LI.
        destruct (set_ref_ret C CO h2 (z_sha L []) "WARC-Segment-Origin-ID") as (h3 & E3 & G3 & I3' & GG3 & LL3); auto.
        { apply goodval_hex. apply sha_hex. auto. }
        rewrite E3. cbn [lift bindp]. apply al_ret. cbn [fst snd]. rewrite len_str in LL3. cbn [String.length] in LL3.
        destruct (co_prefix C CO) as (_ & _ & LP). pose proof (co_idsize C CO) as LID.
        split; [auto|]. split.
        { unfold ohd, chd, ctype, cnum, origin. rewrite EI.
          split; [|split; [rewrite GG3; names; rewrite GG2; names; rewrite GG1; names; rewrite GG0; names; rewrite GG; names; auto|
                   split; [rewrite GG3; names; rewrite GG2; names; rewrite GG1; names; rewrite GG0; names; auto|change (len (str "continuation")) with 12 in *; lia]]].
          split; [auto|]. split; [unfold LiveMain.idlen in *; rewrite I3', I15, I4; exact ID0|].
          split; [rewrite GG3; names; rewrite GG2; names; auto|].
          split; [rewrite GG3; names; rewrite GG2; names; rewrite GG1; names; rewrite GG0; names; rewrite GG; names; auto|].
          split; [rewrite GG3; names; rewrite GG2; names; rewrite GG1; names; rewrite GG0; names; rewrite GG; names; auto|].
          split; [rewrite GG3; names; rewrite GG2; names; rewrite GG1; names; auto|].
          split; [eexists; split; [rewrite GG3; names; reflexivity|rewrite !len_app, (ident_len C _ CO LS); change (len (str "<")) with 1; change (len (str ">")) with 1; lia]|].
          split; rewrite GG3; names; rewrite GG2; names; rewrite GG1; names; rewrite GG0; names; rewrite GG; names; auto. }
        { unfold kept. rewrite EI. unfold Header_Len. rewrite !len_str. cbn [String.length].
          pose proof (dec_len (sj_size L sj + c_max C) ltac:(lia)). pose proof (dec_mono (c_max C) (sj_size L sj + c_max C) ltac:(lia)). split; lia. }
    + cbn beta. intros (h1 & pd) s1 (-> & OH & KE & KP). cbn [fst snd] in *. clear GG GG0 LL LL0 N1 ID0 I I0 G G0.
      eapply al_bind; [apply (Wsilo_Next_live C L CO ZO ZL s0 AO DT H 0 FIT LEFT s aa I9 I11 I10 CA)|]. cbn beta. intros (aa' & sl) s1 (CA' & NW). cbn [fst snd] in *.
      pose proof OH as ((O1 & O2 & _) & _ & _ & O3).
      eapply al_bind; [apply (Wsilo_Header_live C L CO ZO ZL s0 H 0 FIT typ kz KZ s1 sl h1 pd NW O1 O2 O3)|].
      { assert (1 <= kept (sj_size L sj) i) by (unfold kept; destruct (i =? 1); lia). lia. }
      cbn beta. intros sl' s2 (hb & HE & OP). apply al_ret. cbn [fst snd]. split; [auto|].
      exists h1, sl', hb, (pd + 6). split; [auto|]. split; [auto|]. split; [auto|]. split; [rewrite KE; reflexivity|]. split; [lia|reflexivity].
  - cbn beta. intros (aa' & sj') s' ((CA' & h & sl & hb & pd & OH & HE & OP & KE & KP & EJ) & FC). cbn [fst snd] in *. split; [auto|].
    assert (RR : exists R, R + len hb = c_max C /\ Rmin <= R).
    { destruct OP as (pre & hp & idx & wid & E1 & E2 & E3 & E4 & E5 & E6 & E7 & E8). destruct OH as (_ & _ & _ & LH).
      destruct (FIT (w_no sl) ltac:(lia)) as (RB & RM). pose proof (RFIT (w_no sl) ltac:(lia)) as RF. exists (c_max C - len hb). rewrite E1, !len_app, len_nil. lia. }
    destruct RR as (R & RR & R4). subst sj'. split; [|split; [reflexivity|]].
    + exists H, (mkS (sj_nseg L sj + 1) h sl 0), [], hb, R, ds, [], pd. cbn [sj_hdr sj_cur sj_ident sj_nseg sj_done sj_pay sj_seg sj_size sj_in sj_z sj_flag sg_no sg_hdr sg_silo sg_size].
      split; [auto|]. split; [auto|]. split; [lia|]. split; [auto|]. split; [auto|]. split; [auto|]. split; [auto|]. split; [auto|].
      split; [rewrite app_nil_r; auto|]. split; [congruence|]. split; [auto|]. split; [auto|]. split; [auto|]. split; [auto|]. split; [auto|]. split; [auto|].
      split; [auto|]. split; [auto|]. split; [auto|]. split; [auto|]. split; [rewrite <- I8, <- I7; exact KE|]. split; [rewrite len_nil; lia|]. split; [auto|]. constructor.
    + eexists. split; [reflexivity|]. cbn [sg_silo]. destruct (space_at H pd sl h [] hb R OP) as (SP & _); [rewrite len_nil; lia|rewrite len_nil; lia|].
      rewrite SP. unfold space, BUFLEN. rewrite len_nil. lia.
Qed.

(** * The end of a segment *)

Lemma ident_big i hd d : hget hd "WARC-Type" = Some (ctype i) -> hget hd "WARC-Refers-To" = refo ->
  exists hd', Ident_Set (z_sha L) prefix (c_idsize C) hd (z_sha L d) None = Ok hd'.
Proof.
  intros HT HR. unfold ctype in HT. destruct (i =? 1).
  - eapply ident_live; eauto. destruct TY as [->|(-> & ref & ->)]; eauto.
  - pose proof (co_idsize C CO) as IS. unfold Ident_Set, Ident_Create. fold (hget hd "WARC-Type"). rewrite HT.
    change (bytes_eqb (str "continuation") (str "resource")) with false. change (bytes_eqb (str "continuation") (str "continuation")) with true.
    cbv iota. cbn [bind]. unfold Header_Set_Id, guard. destruct (hex_id (firstn (N.to_nat (c_idsize C)) (z_sha L d))) as (_ & ->).
    + apply forall_firstn. apply sha_hex. auto.
    + cbn [bind]. rewrite ident_len; [|auto|apply (zo_sha L ZO d)]. rewrite N.leb_refl. cbn [bind]. eauto.
Qed.

Definition gz_head (m : bytes) : Prop := exists xfl r, (xfl = 2 \/ xfl = 4) /\ m = [31; 139; 8; 4; 0; 0; 0; 0; xfl; 3; 12; 0; 65; 97; 8; 0] ++ r.

Lemma finishseg_big H s sj sg (b0 data : bytes) m hb pd : sj_ident L sj = None -> sj_seg L sj = data -> ohd (sg_no sg) (sg_hdr sg) -> sg_size sg = len data -> len data <= D -> len b0 + len data <= D ->
  held H s (w_no (sg_silo sg)) hb -> open_at H kz pd (sg_silo sg) (sg_hdr sg) (m ++ crnlcrnl) hb -> pd = kept (len b0) (sg_no sg) + 6 -> gz_head m ->
  alive (segjob_finishseg C L sj sg) s (fun sj' s' => exists sg' hb', held H s' (w_no (sg_silo sg)) hb' /\ H (w_no (sg_silo sg)) = None /\
    w_no (sg_silo sg') = w_no (sg_silo sg) /\ sg_no sg' = sg_no sg /\ chd (sg_no sg) (sg_hdr sg') /\ cid (sg_no sg) (sg_hdr sg') data /\
    seg_at (upd H (w_no (sg_silo sg)) (Some hb')) (slack (len b0) (sg_no sg) data) sg' /\
    sj' = mkJ L (sj_hdr L sj) (sj_ident L sj) (sj_nseg L sj) (sj_done L sj ++ [sg']) None
           (sj_pay L sj) (sj_seg L sj) (sj_size L sj) (sj_z L sj) (sj_in L sj) (sj_flag L sj)).
Proof.
  intros J3 J4 OHD N2 LD LBD HE OP PD MM. unfold segjob_finishseg. rewrite J3, J4, N2.
  replace (if sg_no sg =? 1 then @None bytes else None) with (@None bytes) by (destruct (_ =? _); auto). cbv zeta.
  destruct OHD as ((G & (I1 & I2) & HT & HR & HZ & HN & HO & HP & HL) & HB & HC & LH). pose proof (goodval_sha L ZO data) as GS.
  destruct (hset_old prefix (sg_hdr sg) "WARC-Block-Digest" _ (str "sha256:" ++ z_sha L data) G eq_refl GS HB) as (h1 & E1 & G1 & D1 & GG1 & LL1).
  rewrite E1. cbn [bindp]. assert (HC1 : hget h1 "Content-Length" = Some (str "00" ++ dec (c_max C))) by (rewrite GG1; names; auto).
  destruct (hset_old prefix h1 "Content-Length" _ (dec (len data)) G1 eq_refl (goodval_dec _) HC1) as (h2 & E2 & G2 & D2 & GG2 & LL2).
  rewrite E2. cbn [bindp].
  assert (HT2 : hget h2 "WARC-Type" = Some (ctype (sg_no sg))) by (rewrite GG2; names; rewrite GG1; names; auto).
  assert (HR2 : hget h2 "WARC-Refers-To" = refo) by (rewrite GG2; names; rewrite GG1; names; auto).
  destruct (ident_big (sg_no sg) h2 data HT2 HR2) as (h3 & E3). rewrite E3. cbn [lift bindp].
  apply ident_set_cases in E3; auto. destruct E3 as (EF & x & EX & X1 & X2). rewrite HT2, HR2 in X1. rewrite HT2 in X2.
  assert (K3 : forall m, hget h3 m = hget h2 m) by (intros q; unfold hget, Header_Get; rewrite EF; auto).
  eapply al_bind; [eapply (Wsilo_Finish_live C L s0 H 0 FIT kz KZ pd s (sg_silo sg) (sg_hdr sg) m hb); eauto|]. cbn beta. intros sl' s' ((hb' & HE' & LHB) & ->). apply al_ret.
  destruct OP as (pre & hp & idx & wid & EH & H1 & H2 & H3 & H4 & H5 & H6 & EW).
  assert (LI3 : len (h_id h3) = c_idsize C) by (rewrite EX; apply ident_len; auto; apply (len_sha L ZO)).
  assert (LH3 : hlen prefix h3 + (len (str "00" ++ dec (c_max C))) = hlen prefix (sg_hdr sg) + len (dec (len data))).
  { rewrite (hlen_eq _ h3), EF, LI3. rewrite (hlen_eq _ h2), D2, D1, I1 in LL2. rewrite !len_str_app, !(len_sha L ZO) in LL1. lia. }
  pose proof (dec_len (len data) ltac:(lia)) as DL. pose proof (dec_len (len b0 + c_max C) ltac:(pose proof (co_max C CO); lia)) as DLB. pose proof (dec_pos (c_max C)) as DPM.
  assert (KB : 30 <= kept (len b0) (sg_no sg) <= 118) by (unfold kept; pose proof (dec_pos (len b0 + c_max C)); destruct (sg_no sg =? 1); lia).
  rewrite len_str_app in LH3. cbn [String.length] in LH3.
  assert (EWH : w_hlen (sg_silo sg) = len hp /\ w_len (sg_silo sg) = len hb /\ w_start (sg_silo sg) = len pre) by (rewrite EW; auto).
  destruct EWH as (EWH & EWL & EWS).
  exists (mkS (sg_no sg) h3 (mkW (w_no (sg_silo sg)) (w_idx (sg_silo sg)) (w_len (sg_silo sg)) (w_start (sg_silo sg)) (w_hlen (sg_silo sg)) false (w_wid (sg_silo sg))) (len data)), hb'.
  cbn [sg_no sg_hdr sg_silo sg_size w_no]. split; [auto|]. split; [auto|]. split; [auto|]. split; [auto|].
  assert (G3 : hgood h3) by (unfold hgood; rewrite EF; auto).
  assert (ID3 : idlen h3) by (split; [auto|]; rewrite EX; apply hex_id; apply forall_firstn; apply sha_hex; auto).
  assert (HZ3 : hget h3 "z" = None) by (rewrite K3, GG2; names; rewrite GG1; names; auto).
  split.
  { unfold chd. split; [auto|]. split; [auto|]. split; [rewrite K3; auto|]. split; [rewrite K3; auto|]. split; [auto|].
    split; [rewrite K3, GG2; names; rewrite GG1; names; auto|].
    split; [unfold origin in *; destruct (_ =? _); [auto|]; rewrite K3, GG2; names; rewrite GG1; names; auto|].
    split; rewrite K3, GG2; names; rewrite GG1; names; auto. }
  split. { exists x. split; [auto|]. split; [intros E; apply X1; congruence|]. intros NT. apply X2. congruence. }
  split; [|first [reflexivity|rewrite <- J4; reflexivity|rewrite <- J3, <- J4; reflexivity|idtac]].
  exists hb', (w_idx (sg_silo sg)), (w_len (sg_silo sg)), (w_start (sg_silo sg)), (hlen prefix (sg_hdr sg) + pd - hlen prefix h3), (w_wid (sg_silo sg)).
  cbn [sg_no sg_hdr sg_silo sg_size w_no]. rewrite upd_same. split; [auto|]. split; [auto|]. split; [auto|]. split; [auto|]. split; [auto|].
  split; [unfold slack; lia|]. split; [lia|]. rewrite EWH, EWL, EWS. split; [f_equal; lia|]. split; [auto|]. rewrite EH, !len_app. lia.
Qed.

(* flushing, finishing and the end of the segment *)
Definition ending {B} (sj : segjob L) (sg : segment) (ob : N) (k : segjob L -> prog B) : prog B :=
  let! _ := assert (len (sj_in L sj) =? 0) in
  let! (sj, sg) := segjob_deflate L sj sg ob ZSync in
  let! ob := segjob_setup_outbuf C sg in
  let! (sj, sg) := segjob_deflate L sj sg ob ZFinish in
  let! _ := assert (24 <? Wsilo_GetSpace C (sg_silo sg))%Z in
  let! sl := Wsilo_Store (sg_silo sg) crnlcrnl in
  let! sj := segjob_finishseg C L sj (mkS (sg_no sg) (sg_hdr sg) sl (sg_size sg)) in
  k sj.

Lemma ending_live {B} s sj tk sg ob (k : segjob L -> prog B) Q : busy s sj tk -> start tk -> sj_cur L sj = Some sg ->
  segjob_setup_outbuf C sg = Ret ob ->
  (forall s' sj' ds, idle s' sj' tk (ds ++ [sj_seg L sj]) -> sj_done L sj' <> [] -> (ob < 52 -> Forall (fun d => 300 <= len d) (ds ++ [sj_seg L sj])) -> alive (k sj') s' Q) ->
  alive (ending sj sg ob k) s Q.
Proof.
  intros (H & sg' & out & hb & R & ds & cur & pd & G1 & G2 & G3 & G4 & G5 & G6 & G7 & G8 & G9 & G10 & G11 & G12 & G13 & G14 & G15 & G16 & G17 & G18 & G19 & G20 & G21 & G22 & G23 & G24) ST EC EO K.
  pose proof (start_len _ ST) as LD.
  rewrite G1 in EC. injection EC as ->. unfold ending. rewrite G2. apply al_assert; [auto|].
  destruct (open_w _ _ _ _ _ _ _ _ _ G20) as (WL & WB).
  pose proof (steered_room _ _ _ _ _ (N.le_trans _ _ _ RM4 G23) G24) as RM. destruct (space_at _ _ _ _ _ _ _ G20 G22 RM) as (SP & SPL & SPU).
  rewrite (outbuf C L 0 FIT typ kz KZ sg _ SP) in EO by lia. injection EO as EO. assert (EB : ob + 24 = N.min BUFLEN (R - len out)) by (unfold space in *; lia).
  destruct (steered_zran _ _ _ _ _ G24) as (ZR & FL).
  destruct (zs_end L ZS _ _ _ _ _ _ (N.le_trans _ _ _ RM4 G23) G24 EB) as (z1 & c1 & o1 & EZ1 & LO1 & FIN).
  eapply al_bind.
  { apply keep_cache; [apply deflate_nc|]. eapply (deflate_live C L ZO s0 H 0 FIT kz KZ); [exact G19|exact WL|exact WB|lia|rewrite G2; exact EZ1|left; auto]. }
  cbn beta zeta. intros x s1 ((H1 & ->) & FC1). rewrite G2, skipn_nil.
  set (sg1 := mkS (sg_no sg) (sg_hdr sg) (mkW (w_no (sg_silo sg)) (w_idx (sg_silo sg)) (len (hb ++ o1)) (w_start (sg_silo sg)) (w_hlen (sg_silo sg)) true (w_wid (sg_silo sg))) (sg_size sg)).
  assert (OP1 : open_at H kz pd (sg_silo sg1) (sg_hdr sg1) (out ++ o1) (hb ++ o1)) by (eapply open_more; [exact G20|reflexivity]).
  assert (RM1 : len (out ++ o1) + 24 < R) by (rewrite len_app; lia).
  destruct (space_at _ _ _ _ _ _ R OP1 ltac:(rewrite !len_app; lia) RM1) as (SP1 & SPL1 & SPU1).
  rewrite (outbuf C L 0 FIT typ kz KZ sg1 _ SP1) by lia. cbn [bindp]. set (ob1 := Z.to_N _).
  assert (EB1 : ob1 + 24 = N.min BUFLEN (R - (len out + len o1))) by (unfold ob1, space in *; rewrite len_app in *; lia).
  destruct (FIN ob1 EB1) as (z2 & c2 & o2 & EZ2 & LO2).
  destruct (zl_stream L ZL _ _ _ _ _ _ _ _ _ _ _ ZR EZ1 LO1 EZ2) as (xfl & r & HX & EM).
  eapply al_bind.
  { apply keep_cache; [apply deflate_nc|]. eapply (deflate_live C L ZO s0 H 0 FIT kz KZ s1 _ sg1 ob1 ZFinish (hb ++ o1)); cbn [sj_z sj_in]; [exact H1|reflexivity|reflexivity|unfold ob1; lia|exact EZ2|right; auto]. }
  cbn beta zeta. intros x s2 ((H2 & ->) & FC2). cbn [sj_hdr sj_ident sj_nseg sj_done sj_pay sj_seg sj_size sj_in sj_z sj_flag]. rewrite skipn_nil.
  set (sg2 := mkS (sg_no sg1) _ _ _).
  assert (OP2 : open_at H kz pd (sg_silo sg2) (sg_hdr sg2) ((out ++ o1) ++ o2) ((hb ++ o1) ++ o2)) by (eapply open_more; [exact OP1|reflexivity]).
  destruct (space_at _ _ _ _ _ _ R OP2 ltac:(rewrite !len_app; lia) ltac:(rewrite !len_app; lia)) as (SP2 & SPL2 & SPU2).
  apply al_assert; [rewrite SP2; lia|].
  eapply al_bind.
  { apply keep_cache; [apply store_nc|]. apply (store_live C L s0 H 0 FIT kz KZ s2 (w_no (sg_silo sg)) _ ((hb ++ o1) ++ o2)); [exact H2|reflexivity|reflexivity|reflexivity|vm_compute; split; congruence]. }
  cbn beta. intros sl3 s3 ((H3 & E3) & FC3). subst sl3.
  assert (OP3 : open_at H kz pd (mkW (w_no (sg_silo sg)) (w_idx (sg_silo sg2)) (len (((hb ++ o1) ++ o2) ++ crnlcrnl)) (w_start (sg_silo sg2)) (w_hlen (sg_silo sg2)) true (w_wid (sg_silo sg2)))
     (sg_hdr sg2) (((out ++ o1) ++ o2) ++ crnlcrnl) (((hb ++ o1) ++ o2) ++ crnlcrnl)) by (eapply open_more; [exact OP2|reflexivity]).
  assert (LC : len (List.concat ds) + len cur <= D) by (rewrite G9, len_app in LD; lia).
  assert (PC : PS cur).
  { destruct ST as (b & EB2). eapply (SZ R _ (List.concat ds) cur b); [exact G24| |rewrite EB2, G9, <- app_assoc; reflexivity].
    split; [auto|]. destruct G20 as (pre & hp & idx & wid & E1 & _). rewrite E1, !len_app in G22. lia. }
  eapply al_bind.
  { apply keep_cache; [apply finishseg_nc|].
    eapply finishseg_big with (b0 := List.concat ds) (data := cur) (H := H) (pd := pd); cbn [sj_hdr sj_ident sj_nseg sj_done sj_pay sj_seg sj_size sj_in sj_z sj_flag sg_hdr sg_silo sg_no sg_size];
      [exact G6|exact G18|exact G16|exact G17|lia|exact LC|exact H3|exact OP3|exact G21|].
    exists xfl, r. split; [auto|]. rewrite <- app_assoc. exact EM. }
  cbn beta. intros sj4 s4 ((sg4 & hb4 & K1 & K2 & K3 & K4 & K5 & K6 & K7 & ->) & FC4).
  cbn [sj_hdr sj_ident sj_nseg sj_done sj_pay sj_seg sj_size sj_in sj_z sj_flag sg_hdr sg_silo sg_no sg_size w_no] in *.
  assert (NI : ~ In (w_no (sg_silo sg)) (silos (sj_done L sj))) by (intros X; apply (dl_some _ _ _ _ _ _ G11) in X; congruence).
  destruct K1 as (STL & KH & KO).
  rewrite G18 in K. apply (K s4 _ ds); cbn [sj_done]; [|destruct (sj_done L sj); discriminate|].
  - exists (upd H (w_no (sg_silo sg)) (Some hb4)). cbn [sj_hdr sj_cur sj_ident sj_nseg sj_done sj_pay sj_seg sj_size sj_in sj_z sj_flag].
    split; [auto|]. split; [auto|]. split; [rewrite app_length; cbn [List.length]; lia|]. split; [auto|]. split; [auto|]. split; [auto|]. split; [auto|]. split; [auto|].
    split; [rewrite concat_app; cbn [List.concat]; rewrite app_nil_r; auto|]. split; [auto|]. split; [congruence|]. split.
    { intros n. destruct (N.eq_dec n (w_no (sg_silo sg))) as [->|NE]; [rewrite upd_same; auto|rewrite upd_other; auto]. }
    assert (SD : silos (sj_done L sj ++ [sg4]) = silos (sj_done L sj) ++ [w_no (sg_silo sg)]) by (unfold silos; rewrite map_app; cbn [map]; rewrite K3; auto).
    split; [|rewrite SD; split].
    + apply dl_app.
      * eapply dl_weak; [|exact G11]. intros n Hn. apply upd_other. intros ->. auto.
      * replace (1 + N.of_nat (List.length (sj_done L sj))) with (sg_no sg) by lia. cbn [dl]. rewrite N.add_0_l. tauto.
    + eapply Permutation.Permutation_NoDup; [apply Permutation.Permutation_cons_append|]. constructor; auto.
    + intros n Hn. apply in_or_app. destruct (N.eq_dec n (w_no (sg_silo sg))) as [->|NE]; [right; left; auto|]. rewrite upd_other in Hn by auto. left. auto.
  - intros OB. apply Forall_app. split; [auto|]. constructor; [|auto]. pose proof (zl_total L ZL _ _ _ ZR) as ZT. unfold zmax, BUFLEN in *. lia.
Qed.

(** * Taking what is given *)

Definition fed (sj : segjob L) (ip : bytes) (sj' : segjob L) : Prop :=
  (sj_done L sj' = sj_done L sj /\ sj_seg L sj' = sj_seg L sj ++ ip) \/ len (sj_seg L sj') <= len ip.
Lemma fed_step sj d sj1 r sj' : sj_done L sj1 = sj_done L sj -> sj_seg L sj1 = sj_seg L sj ++ d -> fed sj1 r sj' -> fed sj (d ++ r) sj'.
Proof.
  intros E1 E2 [(F1 & F2)|F]; [left|right; rewrite len_app; lia]. rewrite F1, F2, E1, E2, app_assoc. auto.
Qed.
Lemma fed_new sj ip sj1 sj' : sj_seg L sj1 = [] -> fed sj1 ip sj' -> fed sj ip sj'.
Proof. intros E [(F1 & F2)|F]; right; [rewrite F2, E|]; cbn [app]; lia. Qed.

Definition fedto (sj : segjob L) (tk ip : bytes) (x : cachev * segjob L) (s : fs) : Prop := cache_ok C s0 (fst x) /\ busy s (snd x) (tk ++ ip) /\ fed sj ip (snd x).
Definition goes_on (fu : nat) : Prop := forall s aa sj tk ip, ip <> [] -> cache_ok C s0 aa -> start (tk ++ ip) ->
  (busy s sj tk /\ len ip + 52 <= 26 * N.of_nat fu) \/
  ((exists ds, idle s sj tk ds /\ Forall (fun d => 300 <= len d) ds) /\ len ip + 26 <= 26 * N.of_nat fu) ->
  alive (feed_loop C L fu aa sj ip) s (fun x s' => cache_ok C s0 (fst x) /\ busy s' (snd x) (tk ++ ip) /\
    ((sj_cur L sj = None -> len (sj_seg L (snd x)) <= len ip) /\ fed sj ip (snd x))).

Lemma round fu s aa sj sg tk ip : goes_on fu -> busy s sj tk -> ip <> [] -> cache_ok C s0 aa -> start (tk ++ ip) -> sj_cur L sj = Some sg ->
  len ip + 52 <= 26 * N.of_nat (S fu) \/ (len ip + 26 <= 26 * N.of_nat (S fu) /\ (4000 <= Wsilo_GetSpace C (sg_silo sg))%Z) ->
  alive (feed_loop C L (S fu) aa sj ip) s (fedto sj tk ip).
Proof.
  intros IH BU NI CA ST EC LF. cbn [feed_loop]. rewrite EC. cbn [bindp]. rewrite EC. pose proof BU as BU0.
  destruct BU as (H & sg' & out & hb & R & ds & cur & pd & G1 & G2 & G3 & G4 & G5 & G6 & G7 & G8 & G9 & G10 & G11 & G12 & G13 & G14 & G15 & G16 & G17 & G18 & G19 & G20 & G21 & G22 & G23 & G24).
  rewrite EC in G1. injection G1 as <-.
  destruct (open_w _ _ _ _ _ _ _ _ _ G20) as (WL & WB).
  pose proof (steered_room _ _ _ _ _ (N.le_trans _ _ _ RM4 G23) G24) as RM. destruct (space_at _ _ _ _ _ _ _ G20 G22 RM) as (SP & SPL & SPU).
  pose proof (outbuf C L 0 FIT typ kz KZ sg _ SP ltac:(lia)) as EO. rewrite EO. cbn [bindp]. set (ob := Z.to_N _) in *.
  assert (EB : ob + 24 = N.min BUFLEN (R - len out)) by (unfold ob, space in *; lia).
  assert (LI : 0 < len ip) by (destruct ip; [congruence|rewrite len_cons; lia]).
  replace (len ip =? 0) with false by lia. rewrite orb_false_r. destruct (ob <? 52) eqn:OB.
  - apply (ending_live s sj tk sg ob (fun sj0 => match sj_in L sj0 with [] => match ip with [] => Ret (aa, sj0) | _ :: _ => feed_loop C L fu aa sj0 ip end | _ :: _ => feed_loop C L fu aa sj0 ip end) _ BU0); auto; [eapply start_app; eauto|].
    intros s' sj' ds' ID _ FA. assert (SI : sj_in L sj' = []) by (destruct ID as (? & ? & X & _); exact X). rewrite SI.
    destruct ip as [|c r] eqn:EI; [congruence|]. rewrite <- EI in *. eapply al_weak; [apply IH with (tk := tk); auto|].
    2:{ cbn beta. intros x s2 (CA2 & BU2 & F1 & _). split; [auto|]. split; [auto|]. right. apply F1. destruct ID as (? & X & _). exact X. }
    right. split; [exists (ds' ++ [sj_seg L sj]); split; [auto|apply FA; lia]|].
    destruct LF as [LF|(LF & X)]; [lia|]. rewrite SP in X. unfold ob in OB. lia.
  - rewrite G2. set (n := N.min (ob / 2) (len ip)). assert (N0 : 26 <= ob / 2) by (apply N.div_le_lower_bound; lia).
    assert (N1 : n <= len ip /\ 0 < n) by (unfold n; lia). destruct N1 as (N1 & N1'). assert (N2 : 2 * n <= ob).
    { unfold n. pose proof (N.mul_div_le ob 2 ltac:(lia)). lia. }
    set (d := firstn (N.to_nat n) ip). assert (LDn : len d = n) by (unfold d, len in *; rewrite firstn_length; lia).
    assert (ND : d <> []) by (intros X; rewrite X, len_nil in LDn; lia).
    assert (OB' : ob <= BUFLEN) by (unfold BUFLEN in *; lia).
    replace (0 <? n) with true by lia. cbn [assert bindp]. cbn [sj_flag].
    destruct (zs_call L ZS R _ _ _ _ d ob (N.le_trans _ _ _ RM4 G23) G24 EB ltac:(lia) ND ltac:(lia)) as (z' & out' & EZ & LO).
    pose proof (st_call L R _ _ _ _ d ob z' out' G24 EB ltac:(lia) ND ltac:(lia) EZ) as G24'.
    set (fl := if ob <? 131072 then ZPartial else sj_flag L sj) in *.
    eapply al_bind.
    { apply keep_cache; [apply deflate_nc|]. eapply (deflate_live C L ZO s0 H 0 FIT kz KZ); cbn [sj_z sj_in sg_silo]; [exact G19|exact WL|exact WB|exact OB'|exact EZ|left; auto]. }
    cbn beta zeta. intros x s1 ((H1 & ->) & FC1). cbn [sj_hdr sj_ident sj_nseg sj_done sj_pay sj_seg sj_size sj_in sj_z sj_flag sg_no sg_hdr sg_silo sg_size].
    rewrite LDn. rewrite (skipn_all2 d) by (unfold len in LDn; lia). cbn [sj_in].
    set (sj' := mkJ L _ _ _ _ _ _ _ _ _ _ _).
    assert (BU' : busy s1 sj' (tk ++ d)).
    { eexists H, _, (out ++ out'), (hb ++ out'), R, ds, (cur ++ d), pd. unfold sj'. cbn [sj_hdr sj_cur sj_ident sj_nseg sj_done sj_pay sj_seg sj_size sj_in sj_z sj_flag].
      split; [reflexivity|]. cbn [sg_no sg_hdr sg_silo sg_size w_no]. split; [auto|]. split; [auto|]. split; [auto|]. split; [auto|]. split; [auto|].
      split; [congruence|]. split; [rewrite len_app; lia|]. split; [rewrite G9, app_assoc; auto|]. split; [congruence|]. split; [auto|]. split; [auto|]. split; [auto|].
      split; [auto|]. split; [auto|]. split; [auto|]. split; [rewrite len_app; lia|]. split; [congruence|]. split; [auto|].
      split; [eapply open_more; [exact G20|reflexivity]|]. split; [auto|]. split; [rewrite !len_app; lia|]. split; [auto|exact G24']. }
    assert (FD : sj_done L sj' = sj_done L sj /\ sj_seg L sj' = sj_seg L sj ++ d) by (unfold sj'; cbn [sj_done sj_seg]; auto). destruct FD as (FD1 & FD2).
    clearbody sj'. assert (SI : sj_in L sj' = []) by (destruct BU' as (? & ? & ? & ? & ? & ? & ? & ? & ? & X & _); exact X).
    destruct (skipn (N.to_nat n) ip) as [|c r] eqn:ER.
    + apply al_ret. unfold fedto. cbn [fst snd]. split; [auto|]. replace ip with d; [split; [auto|left; auto]|]. unfold d. rewrite <- (firstn_skipn (N.to_nat n) ip) at 2. rewrite ER, app_nil_r. auto.
    + assert (EI : ip = d ++ c :: r) by (rewrite <- ER; symmetry; apply firstn_skipn).
      assert (LC : len ip = n + len (c :: r)) by (rewrite EI, len_app; lia). assert (LC0 : 0 < len (c :: r)) by (rewrite len_cons; lia).
      eapply al_weak; [apply IH with (tk := tk ++ d); [discriminate|auto|rewrite <- app_assoc, <- EI; auto|]|].
      2:{ cbn beta. intros x s2 (CA2 & BU2 & _ & F2). split; [auto|]. split; [rewrite EI, app_assoc; auto|]. rewrite EI. eapply fed_step; eauto. }
      left. split; [auto|]. assert (NN : n = ob / 2) by lia.
      destruct LF as [LF|(LF & X)]; [lia|]. rewrite SP in X. assert (1988 <= ob / 2) by (apply N.div_le_lower_bound; unfold ob; lia). lia.
Qed.

(* what fits in one call *)
Lemma one_call fu s aa sj sg tk ip : busy s sj tk -> ip <> [] -> sj_cur L sj = Some sg -> 26 <= len ip ->
  (2 * Z.of_N (len ip) + 24 <= Wsilo_GetSpace C (sg_silo sg))%Z ->
  alive (feed_loop C L (S fu) aa sj ip) s (fun x s' => fst x = aa /\ busy s' (snd x) (tk ++ ip) /\ sj_seg L (snd x) = sj_seg L sj ++ ip /\
    exists sg' R z d o fl av z' out, sj_cur L (snd x) = Some sg' /\ Rmin <= R /\ steered L R z d o fl /\ av + 24 = N.min BUFLEN (R - len o) /\ 52 <= av /\
      2 * len ip <= av /\ z_deflate L z ip av (if av <? 131072 then ZPartial else fl) = (z', len ip, out, ZOk) /\
      (Wsilo_GetSpace C (sg_silo sg) <= Wsilo_GetSpace C (sg_silo sg') + Z.of_N (len out))%Z).
Proof.
  intros BU NI EC L26 LSP. cbn [feed_loop]. rewrite EC. cbn [bindp]. rewrite EC. pose proof BU as BU0.
  destruct BU as (H & sg' & out & hb & R & ds & cur & pd & G1 & G2 & G3 & G4 & G5 & G6 & G7 & G8 & G9 & G10 & G11 & G12 & G13 & G14 & G15 & G16 & G17 & G18 & G19 & G20 & G21 & G22 & G23 & G24).
  rewrite EC in G1. injection G1 as <-.
  destruct (open_w _ _ _ _ _ _ _ _ _ G20) as (WL & WB).
  pose proof (steered_room _ _ _ _ _ (N.le_trans _ _ _ RM4 G23) G24) as RM. destruct (space_at _ _ _ _ _ _ _ G20 G22 RM) as (SP & SPL & SPU).
  pose proof (outbuf C L 0 FIT typ kz KZ sg _ SP ltac:(lia)) as EO. rewrite EO. cbn [bindp]. set (ob := Z.to_N _) in *.
  assert (EB : ob + 24 = N.min BUFLEN (R - len out)) by (unfold ob, space in *; lia).
  rewrite SP in LSP. assert (OB : 2 * len ip <= ob) by (unfold ob; lia).
  replace (len ip =? 0) with false by lia. rewrite orb_false_r. replace (ob <? 52) with false by lia.
  rewrite G2. set (n := N.min (ob / 2) (len ip)). assert (N0 : len ip <= ob / 2) by (apply N.div_le_lower_bound; lia).
  assert (EN : n = len ip) by (unfold n; lia). rewrite EN.
  assert (FI : firstn (N.to_nat (len ip)) ip = ip) by (apply firstn_all2; unfold len; lia). rewrite FI.
  assert (OB' : ob <= BUFLEN) by (unfold BUFLEN in *; lia).
  replace (0 <? len ip) with true by lia. cbn [assert bindp]. cbn [sj_flag].
  destruct (zs_call L ZS R _ _ _ _ ip ob (N.le_trans _ _ _ RM4 G23) G24 EB ltac:(lia) NI OB) as (z' & out' & EZ & LO).
  pose proof (st_call L R _ _ _ _ ip ob z' out' G24 EB ltac:(lia) NI OB EZ) as G24'.
  pose proof EZ as EZ0. set (fl := if ob <? 131072 then ZPartial else sj_flag L sj) in *.
  eapply al_bind.
  { apply keep_cache; [apply deflate_nc|]. eapply (deflate_live C L ZO s0 H 0 FIT kz KZ); cbn [sj_z sj_in sg_silo]; [exact G19|exact WL|exact WB|exact OB'|exact EZ|left; auto]. }
  cbn beta zeta. intros x s1 ((H1 & ->) & FC1). cbn [sj_hdr sj_ident sj_nseg sj_done sj_pay sj_seg sj_size sj_in sj_z sj_flag sg_no sg_hdr sg_silo sg_size].
  rewrite (skipn_all2 ip) by (unfold len; lia). cbn [sj_in].
  set (sj' := mkJ L _ _ _ _ _ _ _ _ _ _ _).
  apply al_ret. cbn [fst snd]. split; [auto|].
  assert (OP2 : open_at H kz pd (mkW (w_no (sg_silo sg)) (w_idx (sg_silo sg)) (len (hb ++ out')) (w_start (sg_silo sg)) (w_hlen (sg_silo sg)) true (w_wid (sg_silo sg)))
     (sg_hdr sg) (out ++ out') (hb ++ out')) by (eapply open_more; [exact G20|reflexivity]).
  split; [|split; [unfold sj'; cbn [sj_seg]; auto|]].
  - eexists H, _, (out ++ out'), (hb ++ out'), R, ds, (cur ++ ip), pd. unfold sj'. cbn [sj_hdr sj_cur sj_ident sj_nseg sj_done sj_pay sj_seg sj_size sj_in sj_z sj_flag].
      split; [reflexivity|]. cbn [sg_no sg_hdr sg_silo sg_size w_no]. split; [auto|]. split; [auto|]. split; [auto|]. split; [auto|]. split; [auto|].
      split; [congruence|]. split; [rewrite len_app; lia|]. split; [rewrite G9, app_assoc; auto|]. split; [congruence|]. split; [auto|]. split; [auto|]. split; [auto|].
      split; [auto|]. split; [auto|]. split; [auto|]. split; [rewrite len_app; lia|]. split; [congruence|]. split; [auto|].
      split; [exact OP2|]. split; [auto|]. split; [rewrite !len_app; lia|]. split; [auto|exact G24'].
  - eexists _, R, (sj_z L sj), cur, out, (sj_flag L sj), ob, z', out'. unfold sj'. cbn [sj_cur]. split; [reflexivity|]. split; [auto|]. split; [exact G24|]. split; [exact EB|].
    split; [lia|]. split; [auto|]. split; [exact EZ0|]. cbn [sg_silo].
    destruct (space_at _ _ _ _ _ _ R OP2 ltac:(rewrite !len_app; lia) ltac:(rewrite !len_app; lia)) as (SP2 & _).
    rewrite SP, SP2. unfold space. rewrite len_app. lia.
Qed.

Lemma feed_big fu : goes_on fu.
Proof.
  induction fu as [|fu IH]; intros s aa sj tk ip NI CA LD [(BU & LF)|((ds & ID & FA) & LF)]; try lia.
  - assert (EC : exists sg, sj_cur L sj = Some sg) by (destruct BU as (? & sg & ? & ? & ? & ? & ? & ? & EC & _); eauto). destruct EC as (sg & EC).
    eapply al_weak; [eapply (round fu s aa sj sg tk ip); eauto|]. cbn beta. intros x s' (X1 & X2 & X3). split; [auto|]. split; [auto|]. split; [congruence|auto].
  - pose proof (newseg_big s aa sj tk ds ID FA (start_app _ _ LD) CA) as NL.
    cbn [feed_loop]. replace (sj_cur L sj) with (@None segment) by (destruct ID as (? & X & _); auto).
    eapply al_bind; [exact NL|]. cbn beta. intros (aa1 & sj1) s1 (CA1 & BU & ES & sg & EC & SP). cbn [fst snd] in *.
    pose proof (round fu s1 aa1 sj1 sg tk ip IH BU NI CA1 LD EC (or_intror (conj LF SP))) as X. cbn [feed_loop] in X.
    rewrite EC in X. cbn [bindp] in X. rewrite EC in X. rewrite EC. eapply al_weak; [exact X|]. cbn beta. intros x s' (X1 & X2 & X3).
    split; [auto|]. split; [auto|]. assert (FN : forall sj, fed sj ip (snd x)) by (intros q; eapply fed_new; eauto).
    split; [|auto]. intros _. destruct X3 as [(_ & X3)|X3]; [rewrite X3, ES; cbn [app]; lia|auto].
Qed.

(* the end of the object *)
Lemma feed_done fu s aa sj tk : busy s sj tk -> start tk -> (0 < fu)%nat ->
  alive (feed_loop C L fu aa sj []) s (fun x s' => fst x = aa /\ (exists ds, idle s' (snd x) tk (ds ++ [sj_seg L sj])) /\ sj_done L (snd x) <> []).
Proof.
  intros BU LD LF. destruct fu as [|fu]; [lia|]. cbn [feed_loop]. pose proof BU as BU0.
  destruct BU as (H & sg & out & hb & R & ds & cur & pd & G1 & G2 & G3 & G4 & G5 & G6 & G7 & G8 & G9 & G10 & G11 & G12 & G13 & G14 & G15 & G16 & G17 & G18 & G19 & G20 & G21 & G22 & G23 & G24).
  rewrite G1. cbn [bindp]. rewrite G1.
  pose proof (steered_room _ _ _ _ _ (N.le_trans _ _ _ RM4 G23) G24) as RM. destruct (space_at _ _ _ _ _ _ _ G20 G22 RM) as (SP & SPL & SPU).
  pose proof (outbuf C L 0 FIT typ kz KZ sg _ SP ltac:(lia)) as EO. rewrite EO. cbn [bindp]. set (ob := Z.to_N _) in *.
  change (len [] =? 0) with true. rewrite orb_true_r.
  apply (ending_live s sj tk sg ob (fun sj0 => match sj_in L sj0 with [] => Ret (aa, sj0) | _ :: _ => feed_loop C L fu aa sj0 [] end) _ BU0); auto.
  intros s' sj' ds' ID ND _. assert (SI : sj_in L sj' = []) by (destruct ID as (? & ? & X & _); exact X). rewrite SI. apply al_ret. cbn [fst snd]. eauto.
Qed.
End Big.
