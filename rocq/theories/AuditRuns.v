(* Runs of the model: archives which the audit finds in order, and which it does
   not, although they are; and those it does not come to an end with. *)
From Coq Require Import String Sorting.Sorted Permutation.
From Coq Require Import ZifyBool ZifyNat ZifyN.
From Verif Require Import Base BaseLemmas ListLemmas IndexModel IndexSpec HeaderModel HeaderSpec HeaderProofs GzipModel GzipSpec
  ProgModel StoreModel StoreSpec StoreSysModel StoreWp StoreSys StoreHdr StoreGet StoreWorld StoreOrigin StoreToy StoreToyOk StoreWit StoreRuns
  InflateSpec ReindexSpec ReindexMain ReindexRuns AuditModel AuditSpec AuditProofs AuditMain.
Open Scope string_scope.
Open Scope list_scope.
Open Scope N_scope.

(** * Deciding the conditions *)

Definition head_of (s : fs) (e : ixent) : option header :=
  match f_silo s (e_silo e) with
  | Some (b, _) => match Rsilo_ReadHeader K b (e_off e) with Ok (Some (hd, _, _)) => Some hd | _ => None end
  | None => None
  end.

Lemma head_ok s n o w e : in_archive K toy s n o w e -> head_of s e = Some (wr_hdr w) /\ In e (f_idx s) /\ e_silo e = n /\ e_off e = o /\ hsorted (h_fields (wr_hdr w)).
Proof.
  intros A. destruct (at_entry K toy K_ok _ _ _ _ _ A) as (b & a & H & B & z & wr & F & _ & _ & HS & R). pose proof A as (I & (E1 & E2 & _) & _).
  split; [|auto]. unfold head_of. rewrite F, R. reflexivity.
Qed.

Definition orderb (s : fs) : bool :=
  let l := flat_map (fun e => match head_of s e with
                              | Some hd => match hget hd "WARC-Segment-Number", hget hd "WARC-Segment-Origin-ID" with
                                           | Some v, Some p => [(undec v, p, e_silo e, e_off e)]
                                           | _, _ => []
                                           end
                              | None => []
                              end) (f_idx s) in
  forallb (fun x => forallb (fun y =>
    match x, y with
    | (k, p, n, o), (k', p', n', o') => implb (bytes_eqb p p' && (2 <=? k) && (k <? k')) ((n <? n') || (n =? n') && (o <? o'))
    end) l) l.

Lemma orderb_ok s : orderb s = true -> in_order K toy s.
Proof.
  intros H n o w e n' o' w' e' id k k' A A' S S' K2 KK. unfold orderb in H. set (f := fun e : ixent => _) in H.
  assert (G : forall n o w e k, in_archive K toy s n o w e -> segment_of K w id k -> 2 <= k -> In (k, str "<" ++ c_prefix K ++ id ++ str ">", n, o) (flat_map f (f_idx s))).
  { clear - f. intros n o w e k A (S1 & S2) K2. destruct (head_ok _ _ _ _ _ A) as (H1 & H2 & H3 & H4 & H5). apply in_flat_map. exists e. split; [auto|]. unfold f. rewrite H1.
    replace (k =? 1) with false in S2 by lia. apply has_get in S1, S2; auto. rewrite S1, S2, undec_dec, H3, H4. left. reflexivity. }
  pose proof (G _ _ _ _ _ A S K2) as X. assert (K2' : 2 <= k') by lia. pose proof (G _ _ _ _ _ A' S' K2') as Y.
  rewrite forallb_forall in H. specialize (H _ X). cbn beta iota in H. rewrite forallb_forall in H. specialize (H _ Y). cbn beta iota in H.
  rewrite bytes_eqb_refl in H. replace (2 <=? k) with true in H by lia. replace (k <? k') with true in H by lia. cbn [andb implb] in H. lia.
Qed.

Definition gapb (s : fs) (k : N) : bool :=
  forallb (fun e => e_silo e <? k) (f_idx s) && forallb (fun n => match f_silo s n with Some _ => true | None => false end) (upto k).

Lemma gapb_ok s k : inv K toy s -> (forall n, f_hold s n = None) -> gapb s k = true -> gapless s k.
Proof.
  intros I H G n. unfold gapb in G. apply andb_prop in G. destruct G as (G1 & G2). rewrite forallb_forall in G1, G2. split.
  - intros F. pose proof (quiet_settled K toy s n I (H n)) as S. destruct (f_silo s n) as [(b, w)|]; [|congruence].
    cbn [settled] in S. destruct S as (w0 & l & es & _ & _ & _ & _ & P & F2). inversion F2 as [|x e l1 l2 E _ X Y]; subst.
    destruct E as (E & _). assert (IE : In e (entries s n)) by (eapply Permutation_in; [symmetry; exact P|left; auto]). apply filter_In in IE. destruct IE as (IE & _). specialize (G1 e IE). lia.
  - intros LT. apply in_upto in LT. specialize (G2 n LT). destruct (f_silo s n); [discriminate|discriminate G2].
Qed.

Definition metab (ign : bool) (s : fs) : bool :=
  forallb (fun e => match head_of s e with
                    | Some hd =>
                        match hget hd "WARC-Type" with
                        | Some t => negb (bytes_eqb t (str "metadata")) ||
                            match hget hd "WARC-Payload-Digest" with Some _ => false | None => true end &&
                            (ign || match hget hd "WARC-Block-Digest" with
                             | Some d => match Ident_Create (z_sha toy) (c_idsize K) hd (skipn 7 d) with Ok id => bytes_eqb id (h_id hd) | _ => false end
                             | None => false
                             end)
                        | None => true
                        end
                    | None => true
                    end) (f_idx s).

Lemma metab_ok ign s : metab ign s = true -> meta_named K toy ign s.
Proof.
  intros H n o w e A T. unfold metab in H. rewrite forallb_forall in H. destruct (head_ok _ _ _ _ _ A) as (H1 & H2 & _ & _ & S). specialize (H e H2). rewrite H1 in H.
  apply has_get in T; auto. rewrite T, bytes_eqb_refl in H. cbn [negb orb] in H. apply andb_prop in H. destruct H as (P & D).
  destruct (hget (wr_hdr w) "WARC-Payload-Digest") eqn:EP; [discriminate P|]. split.
  - intros _. destruct ign; [auto|]. right. cbn [orb] in D. destruct A as (_ & _ & b & wr & a & r & z & _ & _ & _ & R). destruct R as (H & B & _ & (_ & BD) & _).
    apply has_get in BD; auto. rewrite BD in D. change (skipn 7 (str "sha256:" ++ z_sha toy (wr_data w))) with (z_sha toy (wr_data w)) in D.
    destruct (Ident_Create _ _ _ _) as [id| | |] eqn:IC; try discriminate D. apply bytes_eqb_true in D. apply (ident_iff K toy _ _ _ S IC). exact D.
  - intros x X. apply has_get in X; auto. congruence.
Qed.

(** * In order *)

Definition bytesb (s : fs) (k : N) : bool := forallb (fun n => forallb (fun c => c <? 256) (content s n)) (upto k).

Lemma bytesb_ok s k : gapless s k -> bytesb s k = true -> forall n b w, f_silo s n = Some (b, w) -> is_bytes b.
Proof.
  intros G B n b w F. assert (LT : n < k) by (apply G; congruence). apply in_upto in LT. unfold bytesb in B. rewrite forallb_forall in B. specialize (B n LT).
  unfold content in B. rewrite F in B. rewrite forallb_forall in B. apply Forall_forall. intros c Hc. apply N.ltb_lt. auto.
Qed.

Lemma clean_run : exists x, reach K toy x /\
  wo_procs x = [(JStore hello, Ret (Some hello_id)); (JStore big, Ret (Some big_id)); (JStore about_big, Ret (Some about_id))] /\
  once K toy (wo_fs x) /\ in_order K toy (wo_fs x) /\ gapless (wo_fs x) 3 /\ meta_named K toy false (wo_fs x) /\ len (f_idx (wo_fs x)) = 7 /\
  (forall n b w, f_silo (wo_fs x) n = Some (b, w) -> is_bytes b).
Proof.
  destruct (go_all (each [JStore hello; JStore big; JStore about_big] 0) [inl (Some hello_id); inl (Some big_id); inl (Some about_id)]
    (fun x => onceb (wo_fs x) && orderb (wo_fs x) && gapb (wo_fs x) 3 && metab false (wo_fs x) && (len (f_idx (wo_fs x)) =? 7) && bytesb (wo_fs x) 3)) as (x & R & E & O).
  - vm_cast_no_check (eq_refl true).
  - reflexivity.
  - rewrite !andb_true_iff, N.eqb_eq in O. destruct O as (((((O1 & O2) & O3) & O4) & O5) & O6). exists x. split; [auto|]. split; [exact E|].
    assert (G : gapless (wo_fs x) 3).
    { apply gapb_ok; auto; [apply (reach_inv K toy K_ok toy_ok); auto|]. apply (all_done K toy K_ok toy_ok x R). intros j p H. rewrite E in H. cbn in H.
      destruct H as [X|[X|[X|[]]]]; injection X as <- <-; eauto. }
    split; [apply onceb_ok; auto|]. split; [apply orderb_ok; auto|]. split; [exact G|]. split; [apply metab_ok; auto|]. split; [auto|]. apply (bytesb_ok _ 3); auto.
Qed.

Lemma clean_case : exists x files out fuel, reach K toy x /\
  wo_procs x = [(JStore hello, Ret (Some hello_id)); (JStore big, Ret (Some big_id)); (JStore about_big, Ret (Some about_id))] /\
  opened fuel (wo_fs x) 0 = Ok files /\ len files = 3 /\ Forall (fun f => is_bytes (snd f)) files /\ main_audit K toy false fuel files = Ok out /\ no_complaint out.
Proof.
  destruct clean_run as (x & R & E & O & I & G & M & N7 & BY).
  assert (HR : forall j p, In (j, p) (wo_procs x) -> exists a, p = Ret a). { intros j p H. rewrite E in H. cbn in H. destruct H as [X|[X|[X|[]]]]; injection X as <- <-; eauto. }
  assert (SZ : N.of_nat (List.length (f_idx (wo_fs x))) < 2 ^ 31 - 2) by (unfold len in N7; rewrite N7; reflexivity).
  destruct (audit_ended K toy false K_ok toy_ok x 3 R HR O I G M SZ) as (ids & _ & _ & m & A).
  set (fuel := Nat.max 4 m). specialize (A fuel (Nat.le_max_r 4 m)). pose proof (opened_gapless (wo_fs x) 3 G 3 0 fuel) as OG.
  assert (LT : (3 < fuel)%nat) by (subst fuel; lia). specialize (OG LT eq_refl). unfold audit_archive in A. rewrite OG in A. cbn [bind] in A.
  eexists x, _, _, fuel. split; [auto|]. split; [exact E|]. split; [exact OG|]. split; [reflexivity|]. split; [|split; [exact A|]].
  - apply Forall_map, Forall_map, Forall_forall. intros n _. cbn [snd fst]. unfold content. destruct (f_silo (wo_fs x) n) as [[b w]|] eqn:F; [eauto|constructor].
  - unfold no_complaint. apply Forall_app. split; apply Forall_forall; intros y Y.
    + apply in_flat_map in Y. destruct Y as (n & _ & [<-|[<-|[]]]); auto.
    + apply in_map_iff in Y. destruct Y as (i & <- & _). exact Logic.I.
Qed.

(** * Not in order *)

Lemma stuck_loop C L ap0 d : forall fuel, pend_loop C L fuel ap0 ap0 d [] = Fuel.
Proof. induction fuel as [|fuel IH]; auto. Qed.

(* The segments in an archive: silo and number, at most one in a silo *)
Definition seg_number (s : fs) (e : ixent) : option bytes := match head_of s e with Some hd => hget hd "WARC-Segment-Number" | None => None end.
Definition pair_eqb (x y : N * bytes) : bool := (fst x =? fst y) && bytes_eqb (snd x) (snd y).
Fixpoint risingb (l : list (N * bytes)) : bool :=
  match l with x :: (y :: _) as r => (fst x <? fst y) && risingb r | _ => true end.
Definition segsb (s : fs) (l : list (N * bytes)) : bool :=
  let q := flat_map (fun e => match seg_number s e with Some v => [(e_silo e, v)] | None => [] end) (f_idx s) in
  risingb l && forallb (fun x => existsb (pair_eqb x) l) q && forallb (fun x => existsb (pair_eqb x) q) l &&
  let r := filter (fun e => match seg_number s e with Some _ => true | None => false end) (f_idx s) in
  forallb (fun e => forallb (fun e' => implb (e_silo e =? e_silo e') (e_off e =? e_off e')) r) r.

Lemma risingb_ok : forall l, risingb l = true -> StronglySorted (fun x y => fst x < fst y) l.
Proof.
  induction l as [|x l IH]; intros H; [constructor|]. destruct l as [|y l]; [constructor; constructor|]. cbn [risingb] in H. apply andb_prop in H. destruct H as (H1 & H2).
  specialize (IH H2). constructor; [auto|]. inversion IH as [|? ? I1 I2]; subst. constructor; [lia|]. eapply Forall_impl; [|exact I2]. cbn beta. lia.
Qed.

Lemma pair_eqb_ok x y : pair_eqb x y = true -> x = y.
Proof. destruct x, y. unfold pair_eqb. cbn. intros H. apply andb_prop in H. destruct H as (H1 & H2). apply N.eqb_eq in H1. apply bytes_eqb_true in H2. congruence. Qed.

Definition number_of (p : part) : N * bytes := (p_silo p, match hget (wr_hdr (p_rec p)) "WARC-Segment-Number" with Some v => v | None => [] end).

Lemma segsb_ok s k its l : StronglySorted before its -> Forall (fun p => in_archive K toy s (p_silo p) (p_off p) (p_rec p) (p_ent p)) its ->
  (forall e, In e (map p_ent its) <-> In e (f_idx s) /\ e_silo e < k) -> (forall e, In e (f_idx s) -> e_silo e < k) -> segsb s l = true ->
  map number_of (filter (fun p => segb (p_rec p)) its) = l.
Proof.
  intros ST IA ME LT H. unfold segsb in H. set (q := flat_map _ _) in H. cbn zeta in H. rewrite !andb_true_iff, !forallb_forall in H. destruct H as (((H1 & H2) & H3) & H4). apply risingb_ok in H1.
  set (m := filter (fun p => segb (p_rec p)) its).
  assert (HM : forall p, In p m -> In p its /\ head_of s (p_ent p) = Some (wr_hdr (p_rec p)) /\ In (p_ent p) (f_idx s) /\ e_silo (p_ent p) = p_silo p /\ e_off (p_ent p) = p_off p /\
    seg_number s (p_ent p) = Some (snd (number_of p))).
  { intros p Hp. apply filter_In in Hp. destruct Hp as (Hp & SB). split; [auto|]. rewrite Forall_forall in IA. destruct (head_ok _ _ _ _ _ (IA p Hp)) as (X1 & X2 & X3 & X4 & _).
    split; [auto|]. split; [auto|]. split; [auto|]. split; [auto|]. unfold seg_number. rewrite X1. unfold number_of. cbn [snd]. unfold segb in SB. destruct (hget _ _); [auto|discriminate SB]. }
  assert (IQ : forall x, In x (map number_of m) <-> In x q).
  { intros x. split.
    - intros X. apply in_map_iff in X. destruct X as (p & <- & Hp). destruct (HM p Hp) as (_ & _ & X1 & X2 & _ & X3). apply in_flat_map. exists (p_ent p). split; [auto|]. rewrite X3, X2. left. reflexivity.
    - intros X. apply in_flat_map in X. destruct X as (e & He & X). destruct (seg_number s e) as [v|] eqn:V; [|destruct X]. destruct X as [<-|[]].
      assert (IE : In e (map p_ent its)) by (apply ME; auto). apply in_map_iff in IE. destruct IE as (p & <- & Hp). apply in_map_iff. exists p.
      rewrite Forall_forall in IA. destruct (head_ok _ _ _ _ _ (IA p Hp)) as (X1 & X2 & X3 & X4 & _). unfold seg_number in V. rewrite X1 in V. unfold number_of. rewrite V, X3. split; [auto|].
      apply filter_In. split; [auto|]. unfold segb. rewrite V. auto. }
  assert (IL : forall x, In x (map number_of m) <-> In x l).
  { intros x. rewrite IQ. split; intros X; [apply H2 in X|apply H3 in X]; apply existsb_exists in X; destruct X as (y & Y & E); apply pair_eqb_ok in E; subst; auto. }
  apply (sorted_same fst); [|exact H1|exact IL].
  - assert (SM : StronglySorted before m) by (apply sorted_filter; exact ST). clear - SM HM H4.
    assert (D : forall a b, In a m -> In b m -> p_silo a = p_silo b -> p_off a = p_off b).
    { intros a b A B E. destruct (HM a A) as (_ & _ & A1 & A2 & A3 & A4), (HM b B) as (_ & _ & B1 & B2 & B3 & B4).
      assert (X : forall e v, In e (f_idx s) -> seg_number s e = Some v -> In e (filter (fun e => match seg_number s e with Some _ => true | None => false end) (f_idx s))).
      { intros e v He V. apply filter_In. rewrite V. auto. }
      specialize (H4 _ (X _ _ A1 A4)). cbn beta in H4. rewrite forallb_forall in H4. specialize (H4 _ (X _ _ B1 B4)). cbn beta in H4.
      rewrite A2, B2, E, N.eqb_refl, A3, B3 in H4. cbn [implb] in H4. lia. }
    clear H4.
    induction SM as [|x m S IH F]; [constructor|]. cbn [map]. constructor; [apply IH; [intros p Hp; apply HM; right; auto|intros a b A B; apply D; right; auto]|].
    apply Forall_map. rewrite Forall_forall in *. intros y Y. specialize (F y Y). unfold before in F. cbn [fst number_of].
    pose proof (D x y (or_introl eq_refl) (or_intror Y)). lia.
Qed.

Lemma rest_ok s k : forallb (fun n => match f_hold s n, f_silo s n with None, Some _ => true | _, _ => false end) (upto k) = true ->
  forall n, n < k -> f_hold s n = None /\ f_silo s n <> None.
Proof. intros H n LT. apply in_upto in LT. rewrite forallb_forall in H. specialize (H n LT). destruct (f_hold s n), (f_silo s n); try discriminate H. split; [auto|discriminate]. Qed.

(* Interrupted after the first segment: the audit does not come to an end. *)
Definition onlyb (s : fs) : bool :=
  forallb (fun n => match f_hold s n, f_silo s n with None, Some _ => true | _, _ => false end) (upto 1) &&
  match f_silo s 1 with None => true | Some _ => false end && forallb (fun e => e_silo e <? 1) (f_idx s) && segsb s [(0, str "1")] &&
  forallb (fun e => match head_of s e with
                    | Some hd => match hget hd "WARC-Type" with Some t => negb (bytes_eqb t (str "metadata")) | None => false end &&
                                 match hget hd "WARC-Segment-Number" with Some v => bytes_eqb v (str "1") | None => true end
                    | None => false
                    end) (f_idx s).

Lemma only_hangs s : inv K toy s -> onlyb s = true -> forall ign fuel, audit_archive K toy ign fuel s = Fuel.
Proof.
  intros IV O ign fuel. unfold onlyb in O. rewrite !andb_true_iff in O. destruct O as ((((O1 & O2) & O3) & O4) & O5). pose proof (rest_ok _ _ O1) as QU.
  assert (N1 : f_silo s 1 = None) by (destruct (f_silo s 1); [discriminate O2|auto]). rewrite forallb_forall in O3, O5.
  destruct (audit_segs K toy ign K_ok s 1 IV QU N1) as (its & segs & ST & IA & ME & SM & SO & ls & AU).
  { intros n o w e A. destruct (head_ok _ _ _ _ _ A) as (H1 & H2 & _ & _ & S). specialize (O5 e H2). rewrite H1 in O5. apply andb_prop in O5. destruct O5 as (T & SN).
    pose proof A as (_ & _ & b & wr & a & r & z & _ & _ & _ & R). destruct R as (H & B & _ & D & (N1' & KI & _) & _).
    assert (SX : hasnt (wr_hdr w) "WARC-Segment-Number" \/ has (wr_hdr w) "WARC-Segment-Number" (str "1")).
    { destruct (hget (wr_hdr w) "WARC-Segment-Number") as [v|] eqn:E; [right|left; apply hasnt_get; auto]. apply bytes_eqb_true in SN. subst v. apply has_get; auto. }
    apply fine_ok; auto.
    - destruct SX as [X|X]; [left; auto|right]. exists 1. split; [exact X|lia].
    - destruct KI as [([X|(X & _)] & _)|[(X & _)|(X & _)]]; eauto.
    - destruct KI as [(X & Y)|[(X & _ & ID)|(X & _ & ID)]].
      + destruct Y as [Y|Y]; [|auto]. destruct X as [X|(X & _)].
        * destruct (N1' X) as (x & E & [(_ & _ & ->)|(Z & _)]); [|auto]. right. right. left. split; auto.
        * apply has_get in X; auto. rewrite X, bytes_eqb_refl in T. discriminate T.
      + right. right. left. split; auto.
      + right. right. left. split; auto. }
  assert (O3' : forall e, In e (f_idx s) -> e_silo e < 1) by (intros e He; specialize (O3 e He); lia).
  pose proof (segsb_ok s 1 its _ ST IA ME O3' O4) as NU. set (m := filter (fun p => segb (p_rec p)) its) in *.
  destruct m as [|p [|]] eqn:M; try discriminate NU. cbn [map] in NU, SM. assert (NP : snd (number_of p) = str "1") by (apply (f_equal (fun l => snd (hd (0, []) l))) in NU; exact NU).
  destruct segs as [|a [|]]; try discriminate SM. inversion SO as [|? ? SA _]; subst. cbn [map] in SM. assert (EA : arec a = p_rec p) by congruence.
  assert (SB : segb (p_rec p) = true). { assert (X : In p m) by (rewrite M; left; auto). apply filter_In in X. apply X. }
  assert (A1 : a_no a = 1%Z).
  { unfold of_seg, seg_no in SA. rewrite EA in SA. unfold number_of in NP. cbn [snd] in NP. unfold segb in SB. destruct (hget (wr_hdr (p_rec p)) "WARC-Segment-Number") as [v|]; [|discriminate SB].
    subst v. cbn [option_map] in SA. change (str "1") with (dec 1) in SA. rewrite num_dec in SA by lia. injection SA as <-. reflexivity. }
  destruct (Nat.lt_ge_cases 1 fuel) as [LT|LE].
  - rewrite AU by lia. destruct fuel as [|fuel]; [lia|]. cbn [audit_pending take_first]. rewrite A1. cbn [Z.eqb Pos.eqb]. rewrite stuck_loop. reflexivity.
  - unfold audit_archive. destruct fuel as [|[|]]; [reflexivity| |lia]. cbn [opened]. destruct (QU 0) as (_ & Q0); [lia|]. destruct (f_silo s 0) as [[b0 w0]|]; [reflexivity|contradiction].
Qed.

Lemma hang_run : exists x, reach K toy x /\ wo_procs x = [(JStore big, Die DKill)] /\ forall ign fuel, audit_archive K toy ign fuel (wo_fs x) = Fuel.
Proof.
  destruct (go_all [PA (AStart (JStore big)); PRun 0 is_link; PA (ACall 0); PRun 0 is_ins; PA (AKill 0)] [inr DKill] (fun x => onlyb (wo_fs x))) as (x & R & E & O).
  - vm_cast_no_check (eq_refl true).
  - reflexivity.
  - exists x. split; [auto|]. split; [exact E|]. apply only_hangs; auto. apply (reach_inv K toy K_ok toy_ok); auto.
Qed.

(* An object in three segments, stored while another command had an unused number:
   the segments are in silos 2, 3 and 1. *)
Definition stat1 (c : call) : bool := match c with CStat n => n =? 1 | _ => false end.
Definition mixedb (s : fs) : bool :=
  segsb s [(1, str "3"); (2, str "1"); (3, str "2")] &&
  forallb (fun e => match head_of s e with
                    | Some hd => match hget hd "WARC-Type" with Some t => negb (bytes_eqb t (str "metadata")) | None => false end
                    | None => false
                    end) (f_idx s) &&
  forallb (fun e => match head_of s e with
                    | Some hd => match hget hd "WARC-Segment-Number" with
                                 | Some _ => implb (e_silo e =? 3) (match hget hd "WARC-Segment-Total-Length" with Some _ => false | None => true end &&
                                     match hget hd "WARC-Segment-Origin-ID" with Some v => bytes_eqb v (str "<" ++ three_id ++ str ">") | None => false end) &&
                                     implb (e_silo e =? 2) (bytes_eqb (c_prefix K ++ h_id hd) three_id)
                                 | None => true
                                 end
                    | None => false
                    end) (f_idx s).
Lemma mixed_missing x : reach K toy x -> (forall j p, In (j, p) (wo_procs x) -> exists a, p = Ret a) -> once K toy (wo_fs x) -> gapless (wo_fs x) 4 ->
  N.of_nat (List.length (f_idx (wo_fs x))) < 2 ^ 31 - 2 -> mixedb (wo_fs x) = true ->
  exists fuel out, audit_archive K toy false fuel (wo_fs x) = Ok out /\ In (LMissing 3) out.
Proof.
  intros R HR ON G SZ O. set (s := wo_fs x) in *. unfold mixedb in O. rewrite !andb_true_iff, !forallb_forall in O. destruct O as ((O1 & O2) & O3).
  pose proof (reach_inv K toy K_ok toy_ok x R) as IV. pose proof (all_done K toy K_ok toy_ok x R HR) as QU. pose proof (ended_entire K toy K_ok toy_ok x R HR) as EN. fold s in IV, QU, EN.
  assert (MN : meta_named K toy false s).
  { intros n o w e A T. exfalso. destruct (head_ok _ _ _ _ _ A) as (H1 & H2 & _ & _ & S). specialize (O2 e H2). rewrite H1 in O2. apply has_get in T; auto. rewrite T, bytes_eqb_refl in O2. discriminate O2. }
  assert (LT : forall e, In e (f_idx s) -> e_silo e < 4).
  { intros e He. apply G. intros F. assert (IE : In e (entries s (e_silo e))) by (apply filter_In; split; [auto|apply N.eqb_refl]).
    pose proof (quiet_settled K toy s (e_silo e) IV (QU _)) as S. rewrite F in S. cbn [settled] in S. rewrite S in IE. destruct IE. }
  assert (N4 : f_silo s 4 = None). { destruct (f_silo s 4) eqn:F; [|auto]. assert (4 < 4); [|lia]. apply G. congruence. }
  assert (QQ : forall n, n < 4 -> f_hold s n = None /\ f_silo s n <> None) by (intros n X; split; [auto|apply G; auto]).
  destruct (audit_segs_entire K toy false K_ok s 4 IV EN ON MN SZ QQ N4 LT) as (its & segs & ST & IA & ME & SM & SO & SK & ls & AU).
  pose proof (segsb_ok s 4 its _ ST IA ME LT O1) as NU. set (m := filter (fun p => segb (p_rec p)) its) in *.
  assert (MI : forall p, In p m -> In p its /\ segb (p_rec p) = true) by (intros p Hp; apply filter_In in Hp; exact Hp).
  destruct m as [|p1 [|p2 [|p3 [|]]]] eqn:M; try discriminate NU. cbn [map] in NU, SM. destruct segs as [|a3 [|a1 [|a2 [|]]]]; try discriminate SM.
  assert (NP : forall p, In p m -> hget (wr_hdr (p_rec p)) "WARC-Segment-Number" = Some (snd (number_of p))).
  { intros p Hp. rewrite M in Hp. destruct (MI p Hp) as (_ & SB). unfold segb in SB. unfold number_of. cbn [snd]. destruct (hget _ _); [auto|discriminate SB]. }
  assert (NN : number_of p1 = (1, str "3") /\ number_of p2 = (2, str "1") /\ number_of p3 = (3, str "2")).
  { split; [exact (f_equal (fun l => nth 0 l (0, [])) NU)|]. split; [exact (f_equal (fun l => nth 1 l (0, [])) NU)|exact (f_equal (fun l => nth 2 l (0, [])) NU)]. }
  destruct NN as (M1 & M2 & M3). rewrite M in NP. pose proof (NP p1 (or_introl eq_refl)) as H1. pose proof (NP p2 (or_intror (or_introl eq_refl))) as H2. pose proof (NP p3 (or_intror (or_intror (or_introl eq_refl)))) as H3.
  rewrite M1 in H1. rewrite M2 in H2. rewrite M3 in H3. cbn [snd] in H1, H2, H3.
  assert (E3 : arec a3 = p_rec p1) by exact (f_equal (fun l => nth 0 l (p_rec p1)) SM). assert (E1 : arec a1 = p_rec p2) by exact (f_equal (fun l => nth 1 l (p_rec p1)) SM). assert (E2 : arec a2 = p_rec p3) by exact (f_equal (fun l => nth 2 l (p_rec p1)) SM).
  inversion SO as [|? ? S3 SO1]; subst. inversion SO1 as [|? ? S1 SO2]; subst. inversion SO2 as [|? ? S2 _]; subst.
  inversion SK as [|? ? K3 SK1]; subst. inversion SK1 as [|? ? K1 SK2]; subst. inversion SK2 as [|? ? K2 _]; subst.
  assert (NO : a_no a3 = 3%Z /\ a_no a1 = 1%Z /\ a_no a2 = 2%Z).
  { unfold of_seg, seg_no in S1, S2, S3. rewrite E1, H2 in S1. rewrite E2, H3 in S2. rewrite E3, H1 in S3. cbn [option_map] in S1, S2, S3.
    change (str "1") with (dec 1) in S1. change (str "2") with (dec 2) in S2. change (str "3") with (dec 3) in S3. rewrite num_dec in S1, S2, S3 by lia.
    injection S1 as <-. injection S2 as <-. injection S3 as <-. auto. }
  destruct NO as (A3 & A1 & A2). exists 10%nat. rewrite AU by (cbn; lia).
  rewrite Forall_forall in IA.
  assert (T2 : hget (a_hdr a2) "WARC-Segment-Total-Length" = None /\ hget (a_hdr a2) "WARC-Segment-Origin-ID" = Some (str "<" ++ three_id ++ str ">")).
  { destruct (MI p3) as (I3 & _); [right; right; left; auto|]. destruct (head_ok _ _ _ _ _ (IA p3 I3)) as (X1 & X2 & X3 & _). specialize (O3 _ X2). rewrite X1, X3, H3 in O3.
    assert (P3 : p_silo p3 = 3) by exact (f_equal fst M3). rewrite P3 in O3. cbn [implb N.eqb Pos.eqb] in O3. change (a_hdr a2) with (wr_hdr (arec a2)). rewrite E2. rewrite !andb_true_iff in O3. destruct O3 as ((O3 & O4) & _).
    split; [destruct (hget _ "WARC-Segment-Total-Length"); [discriminate O3|auto]|]. destruct (hget _ "WARC-Segment-Origin-ID") as [v|]; [|discriminate O4]. apply bytes_eqb_true in O4. rewrite O4. reflexivity. }
  assert (ID1 : c_prefix K ++ h_id (a_hdr a1) = three_id).
  { destruct (MI p2) as (I2 & _); [right; left; auto|]. destruct (head_ok _ _ _ _ _ (IA p2 I2)) as (X1 & X2 & X3 & _). specialize (O3 _ X2). rewrite X1, X3, H2 in O3.
    assert (P2 : p_silo p2 = 2) by exact (f_equal fst M2). rewrite P2 in O3. cbn [implb N.eqb Pos.eqb andb] in O3. change (a_hdr a1) with (wr_hdr (arec a1)). rewrite E1. apply bytes_eqb_true in O3. exact O3. }
  destruct T2 as (T2 & T3).
  remember 9%nat as f9. cbn [audit_pending take_first]. rewrite A3, A1. cbn [Z.eqb Pos.eqb].
  assert (LI : len (h_id (a_hdr a1)) = c_idsize K).
  { destruct K1 as (id & k & Q1 & Q2 & Q3 & Q4 & Q5). unfold of_seg in S1. assert (k = 1) by (rewrite A1 in S1; rewrite S1 in Q1; injection Q1 as Q1; lia). subst k. cbn [N.eqb Pos.eqb arec wr_hdr] in Q5. rewrite Q5. exact Q3. }
  assert (F2 : follows K (h_id (a_hdr a1)) a1 a2 = Ok true).
  { rewrite (follows_seg K) by (auto; lia). rewrite A1, A2. cbn [Z.add Pos.add Z.eqb Pos.eqb andb]. f_equal. unfold isid, oid. replace (first (arec a2)) with false by (unfold first; unfold of_seg in S2; rewrite S2, A2; reflexivity).
    change (wr_hdr (arec a2)) with (a_hdr a2). rewrite T3, <- ID1. change (tl (str "<" ++ (c_prefix K ++ h_id (a_hdr a1)) ++ str ">")) with ((c_prefix K ++ h_id (a_hdr a1)) ++ str ">").
    rewrite <- app_assoc, skipn_app, Nat.sub_diag, skipn_all. cbn [skipn app]. rewrite <- LI. unfold len. rewrite Nat2N.id, firstn_app, Nat.sub_diag, firstn_all. cbn [firstn]. rewrite app_nil_r. apply bytes_eqb_refl. }
  assert (F3 : follows K (h_id (a_hdr a1)) a1 a3 = Ok false) by (rewrite (follows_seg K) by (auto; lia); rewrite A1, A3; reflexivity).
  subst f9. cbn [pend_loop]. unfold Header_Get_Id. cbn [pass]. rewrite F3. cbn [bind]. rewrite F2. cbn [bind]. fold (hget (a_hdr a2) "WARC-Segment-Total-Length"). rewrite T2. cbn [bind]. rewrite A2. cbn [Z.eqb Pos.eqb Z.add Pos.add Pos.succ bind].
  eexists. split; [reflexivity|]. apply in_or_app. right. right. left. reflexivity.
Qed.

Lemma order_run : exists x, reach K toy x /\
  wo_procs x = [(JStore hello, Ret (Some hello_id)); (JStore hello, Ret (Some hello_id)); (JStore three, Ret (Some three_id))] /\
  once K toy (wo_fs x) /\ gapless (wo_fs x) 4 /\ exists fuel out, audit_archive K toy false fuel (wo_fs x) = Ok out /\ In (LMissing 3) out.
Proof.
  destruct (go_all ([PA (AStart (JStore hello)); PRun 0 never; PA (AStart (JStore hello)); PRun 1 is_creat; PA (ACall 1); PA (AStart (JStore three));
      PRun 2 stat1; PA (ACall 2); PRun 2 stat1; PA (ACall 2); PRun 2 stat1; PRun 1 never; PRun 2 never])
    [inl (Some hello_id); inl (Some hello_id); inl (Some three_id)]
    (fun x => onceb (wo_fs x) && gapb (wo_fs x) 4 && (len (f_idx (wo_fs x)) <? 100) && mixedb (wo_fs x))) as (x & R & E & O).
  - vm_cast_no_check (eq_refl true).
  - reflexivity.
  - rewrite !andb_true_iff in O. destruct O as (((O1 & O2) & O3) & O4). exists x. split; [auto|]. split; [exact E|].
    assert (HR : forall j p, In (j, p) (wo_procs x) -> exists a, p = Ret a). { intros j p H. rewrite E in H. cbn in H. destruct H as [X|[X|[X|[]]]]; injection X as <- <-; eauto. }
    assert (G : gapless (wo_fs x) 4) by (apply gapb_ok; auto; [apply (reach_inv K toy K_ok toy_ok); auto|apply (all_done K toy K_ok toy_ok x R HR)]).
    split; [apply onceb_ok; auto|]. split; [exact G|]. apply mixed_missing; auto; [apply onceb_ok; auto|unfold len in O3; lia].
Qed.

(* Two commands store the same at the same time; the one with the lower number is
   the later to finish, and gives it up. *)
Lemma gap_run : exists x, reach K toy x /\ wo_procs x = [(JStore hello, Ret (Some hello_id)); (JStore hello, Ret (Some hello_id))] /\
  f_silo (wo_fs x) 1 <> None /\ forall ign fuel, audit_archive K toy ign (S fuel) (wo_fs x) = Ok [].
Proof.
  destruct (go_all [PA (AStart (JStore hello)); PRun 0 is_creat; PA (ACall 0); PA (AStart (JStore hello)); PRun 1 never; PRun 0 never]
    [inl (Some hello_id); inl (Some hello_id)]
    (fun x => match f_silo (wo_fs x) 0, f_silo (wo_fs x) 1 with None, Some _ => true | _, _ => false end)) as (x & R & E & O).
  - vm_cast_no_check (eq_refl true).
  - reflexivity.
  - exists x. split; [auto|]. split; [exact E|]. destruct (f_silo (wo_fs x) 0) as [[b w]|] eqn:F0; [discriminate O|]. destruct (f_silo (wo_fs x) 1); [|discriminate O].
    split; [discriminate|]. intros ign fuel. unfold audit_archive. cbn [opened]. rewrite F0. reflexivity.
Qed.

(* Metadata with an identifier given by -i *)
Definition two_good (r : res (list line)) : bool :=
  match r with Ok out => match totals out with [(g, b)] => (g =? 2) && (b =? 1) | _ => false end | _ => false end.

Lemma forced_run : exists x, reach K toy x /\ wo_procs x = [(JStore hello, Ret (Some hello_id)); (JStore (forced "one"), Ret (Some forced_id))] /\
  once K toy (wo_fs x) /\ in_order K toy (wo_fs x) /\ gapless (wo_fs x) 1 /\ meta_named K toy true (wo_fs x) /\ (forall n b w, f_silo (wo_fs x) n = Some (b, w) -> is_bytes b) /\
  exists out, audit_archive K toy false 20 (wo_fs x) = Ok out /\ totals out = [(2, 1)].
Proof.
  destruct (go_all (each [JStore hello; JStore (forced "one")] 0) [inl (Some hello_id); inl (Some forced_id)]
    (fun x => onceb (wo_fs x) && orderb (wo_fs x) && gapb (wo_fs x) 1 && metab true (wo_fs x) && bytesb (wo_fs x) 1 && two_good (audit_archive K toy false 20 (wo_fs x)))) as (x & R & E & O).
  - vm_cast_no_check (eq_refl true).
  - reflexivity.
  - rewrite !andb_true_iff in O. destruct O as (((((O1 & O2) & O3) & O4) & O5) & O6). exists x. split; [auto|]. split; [exact E|].
    split; [apply onceb_ok; auto|]. split; [apply orderb_ok; auto|].
    assert (G : gapless (wo_fs x) 1).
    { apply gapb_ok; auto; [apply (reach_inv K toy K_ok toy_ok); auto|]. apply (all_done K toy K_ok toy_ok x R). intros j p H. rewrite E in H. cbn in H.
      destruct H as [X|[X|[]]]; injection X as <- <-; eauto. }
    split; [exact G|]. split; [apply metab_ok; auto|]. split.
    + apply (bytesb_ok _ 1); auto.
    + destruct (audit_archive K toy false 20 (wo_fs x)) as [out| | |]; try discriminate O6. exists out. split; [auto|]. cbn [two_good] in O6.
      destruct (totals out) as [|(g, b) [|]]; try discriminate O6. apply andb_prop in O6. destruct O6 as (X & Y). apply N.eqb_eq in X, Y. congruence.
Qed.

(* One byte less: the audit stops without a report. *)
Lemma damage_run : exists x b w, reach K toy x /\ wo_procs x = [(JStore hello, Ret (Some hello_id))] /\ f_silo (wo_fs x) 0 = Some (b, w) /\
  main_audit K toy false 20 [(0%Z, removelast b)] = Abort /\ exists out, main_audit K toy false 20 [(0%Z, b)] = Ok out.
Proof.
  destruct (go_all (each [JStore hello] 0) [inl (Some hello_id)]
    (fun x => match f_silo (wo_fs x) 0 with
              | Some (b, _) => match main_audit K toy false 20 [(0%Z, removelast b)], main_audit K toy false 20 [(0%Z, b)] with Abort, Ok _ => true | _, _ => false end
              | None => false
              end)) as (x & R & E & O).
  - vm_cast_no_check (eq_refl true).
  - reflexivity.
  - destruct (f_silo (wo_fs x) 0) as [[b w]|] eqn:F; [|discriminate O]. exists x, b, w. split; [auto|]. split; [exact E|]. split; [auto|].
    destruct (main_audit K toy false 20 [(0%Z, removelast b)]); try discriminate O. split; [auto|].
    destruct (main_audit K toy false 20 [(0%Z, b)]) as [out| | |]; try discriminate O. eauto.
Qed.
