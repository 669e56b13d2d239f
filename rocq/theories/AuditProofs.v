(* The report of an audit is true, whatever the files contain. *)
From Coq Require Import String Sorting.Sorted Permutation.
From Coq Require Import ZifyBool ZifyNat ZifyN.
From Verif Require Import Base BaseLemmas ListLemmas IndexModel HeaderModel HeaderSpec HeaderProofs InflateSpec InflateProofs GzipModel GzipSpec GzipProofs
  ProgModel StoreModel StoreSpec StoreHdr ReindexSpec AuditModel AuditSpec.
Open Scope string_scope.
Open Scope list_scope.
Open Scope N_scope.
Ltac Zify.zify_post_hook ::= Z.div_mod_to_equations.

(** * Headers which have been read *)

Lemma set_sorted hd n v hd' : hsorted (h_fields hd) -> Header_Set hd n v = Ok hd' -> hsorted (h_fields hd').
Proof.
  intros S E. assert (O : ok_name n).
  { unfold Header_Set, guard in E. destruct (settable n) eqn:X; [apply settable_ok; auto|discriminate E]. }
  destruct (set_spec hd n v S O) as (h & E' & S' & _). assert (h = hd') by congruence. subst h. auto.
Qed.

Lemma parse_loop_sorted prefix : forall fuel hd p hd', hsorted (h_fields hd) -> parse_loop fuel prefix hd p = Ok hd' -> hsorted (h_fields hd').
Proof.
  induction fuel as [|fuel IH]; intros hd p hd' S E; [discriminate E|]. cbn [parse_loop] in E. destruct p as [|c p]; [congruence|].
  destruct (strchr 13 (c :: p)) as [[ln q]|]; [|discriminate E]. destruct q as [|x q]; [discriminate E|].
  destruct (x =? 10) eqn:X.
  2:{ destruct x as [|x]; [discriminate E|]. do 4 (destruct x as [x|x|]; try discriminate E). cbn in X. discriminate X. }
  apply N.eqb_eq in X. subst x. destruct ln as [|y ln].
  - unfold guard in E. destruct q; cbn [bind] in E; [congruence|discriminate E].
  - destruct (strchr 58 (y :: ln)) as [[name v]|]; [|discriminate E]. destruct v as [|x v]; [discriminate E|].
    destruct (x =? 32) eqn:X.
    2:{ destruct x as [|x]; [discriminate E|]. do 6 (destruct x as [x|x|]; try discriminate E). cbn in X. discriminate X. }
    apply N.eqb_eq in X. subst x. destruct (bytes_eqb name (str "WARC-Record-ID")).
    + destruct (parse_id prefix v) as [id| | |]; cbn [bind] in E; try discriminate E. apply IH in E; auto.
    + destruct (Header_Set hd name v) as [h| | |] eqn:F; cbn [bind] in E; try discriminate E. apply IH in E; auto. eapply set_sorted; eauto.
Qed.

Lemma parse_sorted prefix t hd : Header_Parse prefix t = Ok hd -> hsorted (h_fields hd).
Proof.
  unfold Header_Parse, guard. destruct (_ || _); cbn [bind]; [|discriminate]. destruct (strchr 10 t) as [[a b]|]; [|discriminate].
  apply parse_loop_sorted. constructor.
Qed.

(** * Reading a record *)

Section Audit.
Variable C : conf.
Variable L : zlib.
Variable ign : bool.
Notation prefix := (c_prefix C).

Lemma read_any b off hd bl o1 : is_bytes b -> off <= len b -> Rsilo_ReadHeader C b off = Ok (Some (hd, bl, o1)) -> exists H t rest xfl more,
  skipn (N.to_nat off) b = H ++ rest /\ gunzip H = Some (t, []) /\ Header_Parse prefix (cstr t) = Ok hd /\ o1 = off + len H /\
  (xfl = 2 \/ xfl = 4) /\ rest = [31; 139; 8; 4; 0; 0; 0; 0; xfl; 3; 12; 0; 65; 97; 8; 0] ++ more /\ 8 <= len more /\
  bl = Z.of_N (le_dec (firstn 8 more)).
Proof.
  intros BY LE. unfold Rsilo_ReadHeader, file_read. set (f := skipn (N.to_nat off) b).
  assert (BF : is_bytes f) by (unfold is_bytes in *; rewrite <- (firstn_skipn (N.to_nat off) b), Forall_app in BY; apply BY).
  assert (FE : f = firstn (N.to_nat 4096) f ++ skipn (N.to_nat 4096) f) by (symmetry; apply firstn_skipn).
  destruct (firstn (N.to_nat 4096) f) as [|c0 p0]; [discriminate|]. set (page := c0 :: p0) in *.
  destruct (gunzip page) as [[t rp]|] eqn:G; [|discriminate]. unfold guard at 1. destruct (len t <=? 4096); cbn [bind]; [|discriminate].
  destruct (Gzip_ReadAa rp) as [l| | |] eqn:A; cbn [bind]; try discriminate.
  destruct (Header_Parse prefix (cstr t)) as [h| | |] eqn:P; cbn [bind]; try discriminate.
  intros E. injection E as -> -> <-. destruct (gunzip_split _ _ _ G) as (m & Em & Gm). specialize (Gm []). rewrite app_nil_r in Gm.
  unfold Gzip_ReadAa in A. destruct (Gzip_GoodAa rp) as [g| | |] eqn:GA; cbn [bind] in A; try discriminate A. destruct g; [|discriminate A].
  destruct (set_nth_good _ GA) as (xfl & r & X & Er). cbn [bind guard] in A. unfold guard in A at 1.
  destruct (16 <=? len rp); cbn [bind] in A; [|discriminate A]. destruct (len rp <? 24) eqn:L24; [discriminate A|].
  assert (L8 : 8 <= len r). { rewrite Er, len_app in L24. change (len [31; 139; 8; 4; 0; 0; 0; 0; xfl; 3; 12; 0; 65; 97; 8; 0]) with 16 in L24. lia. }
  assert (SK : skipn 16 rp = r) by (rewrite Er; reflexivity). rewrite SK in A.
  exists m, t, (rp ++ skipn (N.to_nat 4096) f), xfl, (r ++ skipn (N.to_nat 4096) f).
  split; [rewrite FE at 1; rewrite Em, <- app_assoc; auto|]. split; [auto|]. split; [auto|].
  split; [rewrite Em, len_app; lia|]. split; [auto|]. split; [rewrite Er, <- app_assoc; auto|]. split; [rewrite len_app; lia|].
  assert (F8 : firstn 8 (r ++ skipn (N.to_nat 4096) f) = firstn 8 r).
  { rewrite firstn_app. replace (8 - List.length r)%nat with 0%nat by (unfold len in L8; lia). cbn [firstn]. apply app_nil_r. }
  rewrite F8. unfold guard in A. destruct (0 <? to_i64 (le_dec (firstn 8 r)))%Z eqn:P0; cbn [bind] in A; [|discriminate A]. assert (EA : bl = to_i64 (le_dec (firstn 8 r))) by congruence. rewrite EA.
  assert (BR : is_bytes r).
  { unfold is_bytes in *. rewrite FE, Em, Er, !Forall_app in BF. apply BF. }
  assert (LT : le_dec (firstn 8 r) < 2 ^ 64).
  { unfold le_dec. assert (B8 : be_dec (rev (firstn 8 r)) < 256 ^ len (rev (firstn 8 r))).
    { apply be_dec_bound. apply Forall_rev, forall_firstn. exact BR. }
    unfold len in B8 at 1. rewrite rev_length, firstn_length in B8. replace (Nat.min 8 (List.length r)) with 8%nat in B8 by (unfold len in L8; lia). exact B8. }
  unfold to_i64 in *. destruct (le_dec (firstn 8 r) <? 2 ^ 63) eqn:Q; [reflexivity|]. exfalso. apply N.ltb_ge in Q. apply Z.ltb_lt in P0. clear - P0 LT. revert P0 LT. generalize (le_dec (firstn 8 r)). intros x. lia.
Qed.

Lemma skipn_add {A} (l : list A) a b : a <= len l -> skipn (N.to_nat (a + b)) l = skipn (N.to_nat b) (skipn (N.to_nat a) l).
Proof.
  intros _. rewrite N2Nat.inj_add. generalize (N.to_nat a), (N.to_nat b). clear. intros x y. revert l. induction x as [|x IH]; intros l; auto.
  destruct l as [|c l]; [rewrite !skipn_nil; auto|]. cbn [Nat.add skipn]. auto.
Qed.

Lemma skipn_front {A} (x y : list A) : skipn (N.to_nat (len x)) (x ++ y) = y.
Proof. unfold len. rewrite Nat2N.id, skipn_app, skipn_all, Nat.sub_diag. auto. Qed.

(* one record and what is behind it *)
Lemma read_record b off hd bl o1 d o2 next : is_bytes b -> off <= len b -> Rsilo_ReadHeader C b off = Ok (Some (hd, bl, o1)) ->
  read_chunk b o1 = Ok (d, o2) -> skip_crnl b o2 = Ok next -> exists H t B,
  skipn (N.to_nat off) b = H ++ B ++ crnlcrnl ++ skipn (N.to_nat next) b /\ gunzip H = Some (t, []) /\ Header_Parse prefix (cstr t) = Ok hd /\
  gunzip B = Some (d, []) /\ bl = Z.of_N (le_dec (firstn 8 (skipn 16 B))) /\ o1 = off + len H /\ o2 = o1 + len B /\ off < next <= len b.
Proof.
  intros BY LE R1 R2 R3. destruct (read_any b off hd bl o1 BY LE R1) as (H & t & rest & xfl & more & E1 & E2 & E3 & -> & X & Er & L8 & Eb).
  assert (LN : len b = off + len H + len rest).
  { assert (X1 : List.length (skipn (N.to_nat off) b) = List.length (H ++ rest)) by congruence. rewrite skipn_length, app_length in X1. unfold len in *. lia. }
  unfold read_chunk in R2. rewrite skipn_add, E1, skipn_front in R2 by auto.
  destruct (gunzip rest) as [[d' r2]|] eqn:G; [|discriminate R2]. injection R2 as -> <-.
  destruct (gunzip_split _ _ _ G) as (B & EB & GB). specialize (GB []). rewrite app_nil_r in GB.
  assert (LB : len rest = len B + len r2) by (rewrite EB, len_app; auto).
  assert (O2 : len b - len r2 = off + len H + len B) by lia. rewrite O2 in *.
  unfold skip_crnl in R3. destruct (bytes_eqb _ crnlcrnl) eqn:Q; [|discriminate R3]. injection R3 as <-. apply bytes_eqb_true in Q. unfold file_read in Q.
  assert (S2 : skipn (N.to_nat (off + len H + len B)) b = r2).
  { rewrite <- N.add_assoc, skipn_add, E1, skipn_add, skipn_front, EB, skipn_front; [auto|rewrite len_app; lia|auto]. }
  rewrite S2 in Q. assert (L2 : r2 = crnlcrnl ++ skipn (N.to_nat (len crnlcrnl)) r2) by (rewrite <- Q at 1; symmetry; apply firstn_skipn).
  assert (S3 : skipn (N.to_nat (off + len H + len B + len crnlcrnl)) b = skipn (N.to_nat (len crnlcrnl)) r2) by (rewrite skipn_add, S2 by lia; auto).
  exists H, t, B. rewrite S3. split; [rewrite E1, EB, L2 at 1; auto|]. split; [auto|]. split; [auto|]. split; [auto|].
  assert (L24 : 24 <= len B).
  { unfold gunzip in GB. destruct (gz_skip_head B) as [r|] eqn:GH; [|discriminate GB]. apply gz_skip_head_loc in GH. destruct GH as (h & -> & GH).
    specialize (GH (r ++ r2)). rewrite app_assoc, <- EB, Er in GH.
    assert (M8 : more = firstn 8 more ++ skipn 8 more) by (symmetry; apply firstn_skipn). rewrite M8, app_assoc in GH.
    rewrite aa_head_skip in GH by (rewrite firstn_length; unfold len in L8; lia). assert (GH2 : skipn 8 more = r ++ r2) by congruence.
    assert (LM : len (skipn 8 more) = len (r ++ r2)) by congruence. rewrite len_app in LM. rewrite Er in LB. rewrite !len_app in LB.
    assert (len (skipn 8 more) = len more - 8) by (unfold len; rewrite skipn_length; lia).
    change (len [31; 139; 8; 4; 0; 0; 0; 0; xfl; 3; 12; 0; 65; 97; 8; 0]) with 16 in LB. rewrite len_app. lia. }
  split.
  { rewrite Eb. f_equal. f_equal. assert (SM : skipn 16 rest = more) by (rewrite Er; reflexivity). rewrite <- SM, EB, skipn_app.
    replace (16 - List.length B)%nat with 0%nat by (unfold len in L24; lia). rewrite skipn_O, firstn_app, skipn_length.
    replace (8 - (List.length B - 16))%nat with 0%nat by (unfold len in L24; lia). rewrite firstn_O, app_nil_r. auto. }
  split; [auto|]. split; [auto|]. assert (len r2 = 24 + len (skipn (N.to_nat (len crnlcrnl)) r2)) by (rewrite L2 at 1; rewrite len_app; auto).
  change (len crnlcrnl) with 24 in *. lia.
Qed.

(** * What is said of it *)

Definition num (v : bytes) : Z := match strtoul0 v with None => 0%Z | Some (n, _) => to_int n end.

Lemma check_header_iff hd n x : hsorted (h_fields hd) -> check_header hd n x = [] <-> has hd n x.
Proof.
  intros S. rewrite has_get by auto. unfold check_header, hget. destruct (Header_Get hd (str n)) as [v|]; [|split; discriminate].
  destruct (bytes_eqb x v) eqn:E; [apply bytes_eqb_true in E; subst; split; auto|]. apply bytes_eqb_false in E. split; [discriminate|congruence].
Qed.

Lemma check_digest_iff hd n x es : hsorted (h_fields hd) -> check_digest_header hd n x = Ok es -> es = [] <-> has hd n (str "sha256:" ++ x).
Proof.
  intros S. rewrite has_get by auto. unfold check_digest_header, hget. destruct (Header_Get hd (str n)) as [v|].
  2:{ intros E. injection E as <-. split; discriminate. }
  destruct (len v <? 6); [discriminate|]. destruct (bytes_eqb (firstn 7 v) (str "sha256:")) eqn:A; cbn [negb].
  - apply bytes_eqb_true in A. destruct (bytes_eqb (skipn 7 v) x) eqn:B; intros E; injection E as <-.
    + apply bytes_eqb_true in B. split; auto. intros _. rewrite <- (firstn_skipn 7 v). congruence.
    + apply bytes_eqb_false in B. split; [discriminate|]. intros E. injection E as ->. exfalso. apply B. reflexivity.
  - apply bytes_eqb_false in A. intros E. injection E as <-. split; [discriminate|]. intros E. injection E as ->. exfalso. apply A. reflexivity.
Qed.

Lemma ident_iff hd dig id : hsorted (h_fields hd) -> Ident_Create (z_sha L) (c_idsize C) hd dig = Ok id -> id = h_id hd <-> named_for C L hd dig.
Proof.
  intros S. unfold Ident_Create, named_for. rewrite !has_get by auto. unfold hget. destruct (Header_Get hd (str "WARC-Type")) as [t|]; [|discriminate].
  destruct (bytes_eqb t (str "resource")) eqn:T1; [|destruct (bytes_eqb t (str "continuation")) eqn:T2; [|destruct (bytes_eqb t (str "warcinfo")) eqn:T3;
    [|destruct (bytes_eqb t (str "metadata")) eqn:T4; [|discriminate]]]].
  - apply bytes_eqb_true in T1. subst t. cbn [bind]. intros E. injection E as <-. split; [left; auto|]. intros [(_ & X)|(X & _)]; [auto|discriminate X].
  - apply bytes_eqb_true in T2. subst t. cbn [bind]. intros E. injection E as <-. split; [left; auto|]. intros [(_ & X)|(X & _)]; [auto|discriminate X].
  - apply bytes_eqb_true in T3. subst t. cbn [bind]. intros E. injection E as <-. split; [left; auto|]. intros [(_ & X)|(X & _)]; [auto|discriminate X].
  - apply bytes_eqb_true in T4. subst t. destruct (Header_Get hd (str "WARC-Refers-To")) as [ref|] eqn:R; cbn [bind]; [|discriminate].
    intros E. injection E as <-. split.
    + intros E. right. split; auto. exists ref. split; [apply has_get; auto|auto].
    + intros [([X|[X|X]] & _)|(_ & ref' & X & E)]; try discriminate X. apply has_get in X; auto. unfold hget in X. assert (ref' = ref) by congruence. subst. auto.
Qed.

Lemma check_id_iff hd dig es : hsorted (h_fields hd) -> check_id C L hd dig = Ok es -> es = [] <-> named_for C L hd dig.
Proof.
  intros S. unfold check_id. destruct (Ident_Create _ _ hd dig) as [id| | |] eqn:E; cbn [bind]; try discriminate.
  rewrite <- (ident_iff hd dig id S E). unfold Header_Get_Id. destruct (bytes_eqb id (h_id hd)) eqn:Q; intros X; injection X as <-.
  - apply bytes_eqb_true in Q. split; auto.
  - apply bytes_eqb_false in Q. split; [discriminate|congruence].
Qed.

Lemma base_digit_iff b c v : b <= 36 -> base_digit b c = Some v <-> digit c v /\ v < b.
Proof.
  intros B. unfold base_digit, digit.
  destruct ((48 <=? c) && (c <=? 57)) eqn:Q1; [|destruct ((65 <=? c) && (c <=? 90)) eqn:Q2; [|destruct ((97 <=? c) && (c <=? 122)) eqn:Q3]];
    match goal with |- (if ?x <? b then _ else _) = _ <-> _ => destruct (x <? b) eqn:Q end; (split; [intros E; try discriminate E; injection E as <-; lia|intros E]); try (f_equal; lia); exfalso; lia.
Qed.
Lemma base_digit_none b c : b <= 36 -> base_digit b c = None <-> (forall v, digit c v -> b <= v).
Proof.
  intros B. split.
  - intros E v D. destruct (N.lt_ge_cases v b) as [X|X]; auto. assert (Y : base_digit b c = Some v) by (apply base_digit_iff; auto). congruence.
  - intros H. destruct (base_digit b c) as [v|] eqn:E; auto. apply base_digit_iff in E; auto. destruct E as (D & X). apply H in D. lia.
Qed.
Lemma scan_number b : b <= 36 -> forall s ds m n r, numeral b ds m -> base_scan b m s = (n, r) -> exists ds', s = ds' ++ r /\ numeral b (ds ++ ds') n /\ no_digit b r.
Proof.
  intros B. induction s as [|c s IH]; intros ds m n r N E; cbn [base_scan] in E.
  - injection E as <- <-. exists []. rewrite (app_nil_r ds). cbn. auto.
  - destruct (base_digit b c) as [v|] eqn:Q.
    + apply base_digit_iff in Q; auto. destruct Q. destruct (IH (ds ++ [c]) _ _ _ (numeral_more _ _ _ _ _ N H H0) E) as (ds' & -> & N' & X). exists (c :: ds'). rewrite <- app_assoc in N'. auto.
    + injection E as <- <-. exists []. rewrite (app_nil_r ds). cbn [app]. split; [auto|]. split; [auto|]. cbn. apply base_digit_none; auto.
Qed.
Lemma number_scan b ds m : b <= 36 -> numeral b ds m -> forall t, base_scan b 0 (ds ++ t) = base_scan b m t.
Proof.
  intros B. induction 1 as [c v D V|s n c v N IH D V]; intros t.
  - cbn [app base_scan]. replace (base_digit b c) with (Some v) by (symmetry; apply base_digit_iff; auto). reflexivity.
  - rewrite <- app_assoc, IH. cbn [app base_scan]. replace (base_digit b c) with (Some v) by (symmetry; apply base_digit_iff; auto). reflexivity.
Qed.
Lemma no_digit_scan b m r : b <= 36 -> no_digit b r -> base_scan b m r = (m, r).
Proof. intros B H. destruct r as [|c r]; auto. cbn [base_scan]. cbn in H. apply base_digit_none in H; auto. rewrite H. auto. Qed.
Lemma blank_split s : exists bl, s = bl ++ skip_blank s /\ Forall (fun c => c = 32 \/ 9 <= c <= 13) bl.
Proof.
  induction s as [|c s (bl & E & F)]; [exists []; auto|]. cbn [skip_blank]. destruct ((c =? 32) || (9 <=? c) && (c <=? 13)) eqn:Q.
  - exists (c :: bl). split; [cbn; congruence|]. constructor; auto. lia.
  - exists []. auto.
Qed.
Lemma skip_blanks bl s : Forall (fun c => c = 32 \/ 9 <= c <= 13) bl -> skip_blank (bl ++ s) = skip_blank s.
Proof. induction 1 as [|c bl X F IH]; auto. cbn [app skip_blank]. replace ((c =? 32) || (9 <=? c) && (c <=? 13)) with true by lia. auto. Qed.
Lemma numeral_hd b ds m : numeral b ds m -> exists c t v, ds = c :: t /\ digit c v /\ v < b.
Proof. induction 1 as [c v D V|s n c v N IH D V]; [exists c, [], v; auto|]. destruct IH as (c' & t & v' & -> & X). exists c', (t ++ [c]), v'. auto. Qed.

Definition value (neg : bool) (v : N) : N := if 2 ^ 64 <=? v then 2 ^ 64 - 1 else if neg then (2 ^ 64 - v) mod 2 ^ 64 else v.
Definition magnitude (s : bytes) : option (N * bytes) :=
  match s with
  | 48 :: x :: c :: r =>
      if ((x =? 120) || (x =? 88)) && match base_digit 16 c with Some _ => true | None => false end
      then Some (base_scan 16 0 (c :: r)) else Some (base_scan 8 0 s)
  | 48 :: _ => Some (base_scan 8 0 s)
  | c :: _ => match base_digit 10 c with Some _ => Some (base_scan 10 0 s) | None => None end
  | [] => None
  end.
Lemma magnitude_dec c s : c <> 48 -> magnitude (c :: s) = match base_digit 10 c with Some _ => Some (base_scan 10 0 (c :: s)) | None => None end.
Proof. intros H. destruct c as [|p]; [reflexivity|]. do 6 (destruct p as [p|p|]; try reflexivity); contradiction H; reflexivity. Qed.
Lemma magnitude_zero s : magnitude (48 :: s) = match s with
  | x :: c :: r => if ((x =? 120) || (x =? 88)) && match base_digit 16 c with Some _ => true | None => false end
      then Some (base_scan 16 0 (c :: r)) else Some (base_scan 8 0 (48 :: s))
  | _ => Some (base_scan 8 0 (48 :: s)) end.
Proof. destruct s as [|x [|c r]]; reflexivity. Qed.
Lemma strtoul0_eq s : strtoul0 s = match magnitude (snd (unsign (skip_blank s))) with
  | Some (v, r) => Some (value (fst (unsign (skip_blank s))) v, r) | None => None end.
Proof.
  unfold strtoul0. destruct (unsign (skip_blank s)) as [neg t]. cbn [fst snd]. clear s.
  destruct t as [|c t]; [reflexivity|]. destruct (N.eq_dec c 48) as [->|CN].
  - rewrite magnitude_zero. destruct t as [|x [|c r]]; try (destruct (base_scan _ _ _); reflexivity). destruct (_ && _); destruct (base_scan _ _ _); reflexivity.
  - rewrite magnitude_dec by auto. transitivity (match base_digit 10 c with Some _ => let (v, r) := base_scan 10 0 (c :: t) in Some (value neg v, r) | None => None end).
    + destruct c as [|p]; [reflexivity|]. do 6 (destruct p as [p|p|]; try reflexivity); contradiction CN; reflexivity.
    + destruct (base_digit 10 c); [|reflexivity]. destruct (base_scan 10 0 (c :: t)). reflexivity.
Qed.
Lemma magnitude_iff t m r : magnitude t = Some (m, r) <-> exists pre b ds, t = pre ++ ds ++ r /\ radix pre ds r b /\ numeral b ds m /\ no_digit b r.
Proof.
  split.
  - destruct t as [|c t]; [discriminate|]. destruct (N.eq_dec c 48) as [->|CN].
    + rewrite magnitude_zero. intros E.
      assert (OCT : base_scan 8 0 (48 :: t) = (m, r) -> (match t with x :: t => (x = 120 \/ x = 88) -> no_digit 16 t | [] => True end) ->
         exists pre b ds, 48 :: t = pre ++ ds ++ r /\ radix pre ds r b /\ numeral b ds m /\ no_digit b r).
      { intros Q H. assert (D : digit 48 0) by (left; lia). destruct (scan_number 8 ltac:(lia) t [48] 0 m r) as (ds' & -> & N & X); [constructor; [auto|lia]|exact Q|].
        exists [], 8, (48 :: ds'). split; [reflexivity|]. split; [|auto]. constructor. intros ->. exact H. }
      destruct t as [|x [|c t]]; [apply OCT; [congruence|auto]|apply OCT; [congruence|cbn; auto]|].
      destruct ((x =? 120) || (x =? 88)) eqn:X; cbn [andb] in E; [|apply OCT; [congruence|lia]].
      destruct (base_digit 16 c) as [v|] eqn:Q.
      * injection E as E. assert (Q' := Q). apply base_digit_iff in Q; [|lia]. destruct Q as (D & V).
        destruct (scan_number 16 ltac:(lia) t [c] v m r) as (ds' & -> & N & Y); [constructor; auto|cbn [base_scan] in E; rewrite Q' in E; exact E|].
        exists [48; x], 16, (c :: ds'). split; [reflexivity|]. split; [|auto]. constructor. lia.
      * apply OCT; [congruence|]. intros _. exact (proj1 (base_digit_none 16 c ltac:(lia)) Q).
    + rewrite magnitude_dec by auto. destruct (base_digit 10 c) as [v|] eqn:Q; [|discriminate]. intros E. injection E as E. cbn [base_scan] in E. rewrite Q in E.
      apply base_digit_iff in Q; [|lia]. destruct Q as (D & V). destruct (scan_number 10 ltac:(lia) t [c] v m r) as (ds' & -> & N & Y); [constructor; auto|exact E|].
      exists [], 10, (c :: ds'). split; [reflexivity|]. split; [|auto]. constructor. auto.
  - intros (pre & b & ds & -> & R & N & X). inversion R as [c s r' CN|s r' H|x s r' H]; subst.
    + cbn [app]. rewrite magnitude_dec by auto. destruct (numeral_hd _ _ _ N) as (c' & t & v & E & D & V). injection E as <- <-.
      replace (base_digit 10 c) with (Some v) by (symmetry; apply base_digit_iff; auto; lia). f_equal.
      change (c :: s ++ r) with ((c :: s) ++ r). rewrite (number_scan 10 _ m) by (auto; lia). apply no_digit_scan; auto. lia.
    + cbn [app]. rewrite magnitude_zero. assert (Q : base_scan 8 0 (48 :: s ++ r) = (m, r)).
      { change (48 :: s ++ r) with ((48 :: s) ++ r). rewrite (number_scan 8 _ m) by (auto; lia). apply no_digit_scan; auto. lia. }
      rewrite Q. destruct (s ++ r) as [|x [|c t]] eqn:E; auto. destruct ((x =? 120) || (x =? 88)) eqn:XX; cbn [andb]; auto.
      destruct s as [|y s].
      * cbn [app] in E. subst r. specialize (H eq_refl). cbn in H. rewrite (proj2 (base_digit_none 16 c ltac:(lia))); auto. apply H. lia.
      * exfalso. cbn [app] in E. injection E as -> E. change (48 :: x :: s) with ([48; x] ++ s) in N. pose proof (number_scan 8 _ m ltac:(lia) N []) as Z. cbn in Z.
        assert (XC : x = 120 \/ x = 88) by lia. destruct XC as [-> | ->]; cbn in Z; injection Z as Z; discriminate.
    + change (magnitude (48 :: (x :: ds ++ r)) = Some (m, r)). rewrite magnitude_zero. destruct (numeral_hd _ _ _ N) as (c & t & v & -> & D & V). cbn [app].
      replace ((x =? 120) || (x =? 88)) with true by lia. replace (base_digit 16 c) with (Some v) by (symmetry; apply base_digit_iff; auto; lia). cbn [andb]. f_equal.
      change (c :: t ++ r) with ((c :: t) ++ r). rewrite (number_scan 16 _ m) by (auto; lia). apply no_digit_scan; auto. lia.
Qed.
Lemma unsign_other s : match s with c :: _ => c <> 43 /\ c <> 45 | [] => True end -> unsign s = (false, s).
Proof. destruct s as [|c s]; auto. intros (A & B). destruct c as [|p]; auto. do 6 (destruct p as [p|p|]; try reflexivity); exfalso; auto. Qed.
Lemma magnitude_hd t m r : magnitude t = Some (m, r) -> match t with c :: _ => 48 <= c <= 57 | [] => False end.
Proof.
  destruct t as [|c t]; [discriminate|]. destruct (N.eq_dec c 48) as [->|CN]; [lia|]. rewrite magnitude_dec by auto. destruct (base_digit 10 c) as [v|] eqn:Q; [|discriminate].
  apply base_digit_iff in Q; [|lia]. unfold digit in Q. lia.
Qed.
Lemma value_iff (neg : bool) m n : n = value neg m <-> (2 ^ 64 <= m -> n = 2 ^ 64 - 1) /\ (m < 2 ^ 64 -> n < 2 ^ 64 /\ if neg then (n + m) mod 2 ^ 64 = 0 else n = m).
Proof.
  unfold value. destruct (2 ^ 64 <=? m) eqn:Q; [split; [intros ->; split; [auto|lia]|intros (A & _); apply A; lia]|].
  destruct neg; [|split; [intros ->; lia|intros (_ & A); lia]]. split.
  - intros ->. split; [lia|]. intros _. lia.
  - intros (_ & A). specialize (A ltac:(lia)). destruct A. lia.
Qed.
Lemma strtoul0_iff s n r : strtoul0 s = Some (n, r) <-> c_number s n r.
Proof.
  rewrite strtoul0_eq. split.
  - destruct (magnitude _) as [[m r']|] eqn:Q; [|discriminate]. intros E. injection E as <- <-. apply magnitude_iff in Q. destruct Q as (pre & b & ds & E & R & N & X).
    destruct (blank_split s) as (bl & ES & F). 
    assert (SG : exists sign, skip_blank s = sign ++ snd (unsign (skip_blank s)) /\ In sign [[]; [43]; [45]] /\ bytes_eqb sign [45] = fst (unsign (skip_blank s))).
    { clear. destruct (skip_blank s) as [|c t]; [exists []; cbn; auto|]. destruct (N.eq_dec c 43) as [->|A]; [exists [43]; cbn; auto|]. destruct (N.eq_dec c 45) as [->|B]; [exists [45]; cbn; auto 8|].
      rewrite unsign_other by auto. exists []. cbn; auto. }
    destruct SG as (sign & E1 & I & E2). exists bl, sign, pre, b, ds, m. rewrite <- E, <- E1. split; [auto|]. split; [auto|]. split; [auto|]. split; [auto|]. split; [auto|]. split; [auto|].
    rewrite E2. apply value_iff. auto.
  - intros (bl & sign & pre & b & ds & m & -> & F & I & R & N & X & V). apply value_iff in V.
    assert (M : magnitude (pre ++ ds ++ r) = Some (m, r)) by (apply magnitude_iff; eauto 8). pose proof (magnitude_hd _ _ _ M) as H. rewrite skip_blanks by auto.
    assert (U : unsign (skip_blank (sign ++ pre ++ ds ++ r)) = (bytes_eqb sign [45], pre ++ ds ++ r)).
    { destruct (pre ++ ds ++ r) as [|c t]; [destruct H|]. cbn in I. destruct I as [<-|[<-|[<-|[]]]]; auto. cbn [app skip_blank]. replace ((c =? 32) || (9 <=? c) && (c <=? 13)) with false by lia.
      rewrite unsign_other by lia. reflexivity. }
    rewrite U. cbn [fst snd]. rewrite M, V. reflexivity.
Qed.

Lemma app_nil_iff {A} (x y : list A) : x ++ y = [] <-> x = [] /\ y = [].
Proof. split; [apply app_eq_nil|intros (-> & ->); auto]. Qed.

Lemma audit_one_iff hd B d bl o1 o2 es no : hsorted (h_fields hd) -> bl = Z.of_N (le_dec (firstn 8 (skipn 16 B))) -> o2 = o1 + len B ->
  audit_one C L ign hd d bl o1 o2 = Ok (es, no) ->
  (es = [] <-> agrees C L ign (B, mkRec hd d)) /\ no = option_map num (hget hd "WARC-Segment-Number").
Proof.
  intros S Eb Eo. unfold audit_one. destruct (check_digest_header hd "WARC-Block-Digest" (z_sha L d)) as [e1| | |] eqn:E1; cbn [bind]; try discriminate.
  apply check_digest_iff in E1; auto. fold (hget hd "WARC-Segment-Number"). destruct (hget hd "WARC-Segment-Number") as [v|] eqn:SN.
  - set (w := match strtoul0 v with None => _ | Some _ => _ end).
    assert (W : snd w = Some (num v) /\ (fst w = [] <-> exists n, c_number v n [])).
    { unfold w, num. destruct (strtoul0 v) as [[n [|c r]]|] eqn:SV; cbn [fst snd]; (split; [auto|]); split; try discriminate; try (intros _; exists n; apply strtoul0_iff; auto); try reflexivity; intros (n' & X); apply strtoul0_iff in X; congruence. }
    destruct w as [e4 no']. cbn [fst snd] in W. destruct W as (-> & W). destruct (bytes_eqb v (str "1")) eqn:V1.
    + cbn [bind]. intros E. injection E as <- <-. split; [|auto]. rewrite !app_nil_iff, E1, check_header_iff, W by auto. unfold agrees. cbn [wr_hdr wr_data].
      apply bytes_eqb_true in V1. subst v. split.
      * intros (A1 & A2 & A3 & A4 & _). split; [auto|]. split; [auto|]. split; [destruct (_ =? _)%Z eqn:Q in A3; [lia|discriminate A3]|].
        split; [intros v X; apply has_get in X; [|auto]; assert (v = str "1") as -> by congruence; auto|]. left. apply has_get; auto.
      * intros (A1 & A2 & A3 & A4 & _). split; [auto|]. split; [auto|]. split; [replace (_ =? _)%Z with true by lia; auto|]. split; [|auto]. apply A4. apply has_get; auto.
    + unfold audit_check_ident. fold (hget hd "WARC-Type"). destruct (hget hd "WARC-Type") as [t|] eqn:T; [|discriminate].
      set (e5 := if _ || _ then _ else _). intros E. destruct e5 as [l5| | |] eqn:E5; cbn [bind] in E; try discriminate E. injection E as <- <-. split; [|auto].
      rewrite !app_nil_iff, E1, check_header_iff, W by auto. unfold agrees. cbn [wr_hdr wr_data].
      assert (Q5 : l5 = [] <-> has hd "WARC-Segment-Number" (str "1") \/ (ign = true /\ has hd "WARC-Type" (str "metadata")) \/ named_for C L hd (z_sha L d)).
      { subst e5. apply bytes_eqb_false in V1. rewrite !has_get, SN, T by auto. destruct (negb (bytes_eqb t (str "metadata")) || negb ign) eqn:Q.
        - apply check_id_iff in E5; auto. rewrite E5. split; [auto|]. intros [X|[(-> & X)|X]]; [congruence| |auto].
          exfalso. injection X as ->. rewrite bytes_eqb_refl in Q. discriminate Q.
        - injection E5 as <-. split; [|auto]. intros _. right. left. destruct (bytes_eqb t (str "metadata")) eqn:Y; [|discriminate Q]. apply bytes_eqb_true in Y. subst t.
          destruct ign; [auto|discriminate Q]. }
      rewrite Q5. split.
      * intros (A1 & A2 & A3 & A4 & A5). split; [auto|]. split; [auto|]. split; [destruct (_ =? _)%Z eqn:Q in A3; [lia|discriminate A3]|].
        split; [intros v' X; apply has_get in X; [|auto]; assert (v' = v) as -> by congruence; auto|]. auto.
      * intros (A1 & A2 & A3 & A4 & A5). split; [auto|]. split; [auto|]. split; [replace (_ =? _)%Z with true by lia; auto|]. split; [|auto]. apply A4. apply has_get; auto.
  - unfold audit_check_ident. fold (hget hd "WARC-Type"). destruct (hget hd "WARC-Type") as [t|] eqn:T; [|discriminate].
    set (e5 := if _ || _ then _ else _). intros E. destruct e5 as [l5| | |] eqn:E5; cbn [bind] in E; try discriminate E. injection E as <- <-. split; [|auto].
    rewrite !app_nil_iff, E1, check_header_iff by auto. unfold agrees. cbn [wr_hdr wr_data].
    assert (Q5 : l5 = [] <-> has hd "WARC-Segment-Number" (str "1") \/ (ign = true /\ has hd "WARC-Type" (str "metadata")) \/ named_for C L hd (z_sha L d)).
    { subst e5. rewrite !has_get, SN, T by auto. destruct (negb (bytes_eqb t (str "metadata")) || negb ign) eqn:Q.
      - apply check_id_iff in E5; auto. rewrite E5. split; [auto|]. intros [X|[(-> & X)|X]]; [congruence| |auto].
        exfalso. injection X as ->. rewrite bytes_eqb_refl in Q. discriminate Q.
      - injection E5 as <-. split; [|auto]. intros _. right. left. destruct (bytes_eqb t (str "metadata")) eqn:Y; [|discriminate Q]. apply bytes_eqb_true in Y. subst t.
        destruct ign; [auto|discriminate Q]. }
    rewrite Q5. split.
    + intros (A1 & A2 & A3 & A5). split; [auto|]. split; [auto|]. split; [destruct (_ =? _)%Z eqn:Q in A3; [lia|discriminate A3]|].
      split; [|auto]. intros v' X. apply has_get in X; auto. congruence.
    + intros (A1 & A2 & A3 & A4 & A5). split; [auto|]. split; [auto|]. split; [replace (_ =? _)%Z with true by lia; auto|]. auto.
Qed.

(** * All silos *)

Definition arec (a : aud) : wrec := mkRec (a_hdr a) (a_data a).
Definition segb (w : wrec) : bool := match hget (wr_hdr w) "WARC-Segment-Number" with Some _ => true | None => false end.
Definition aud_ok (a : aud) : Prop := hsorted (h_fields (a_hdr a)) /\ exists v, hget (a_hdr a) "WARC-Segment-Number" = Some v /\ a_no a = num v.

Lemma totals_app x y : totals (x ++ y) = totals x ++ totals y.
Proof. unfold totals. apply flat_map_app. Qed.

Lemma totals_errs es : totals (map LError es) = [].
Proof. induction es; auto. Qed.

Lemma reported_app x y : reported (x ++ y) = reported x ++ reported y.
Proof. unfold reported. apply flat_map_app. Qed.

Lemma reported_errs es : reported (map LError es) = [].
Proof. induction es; auto. Qed.

Lemma marks_app x y : marks (x ++ y) = marks x ++ marks y.
Proof. unfold marks. apply flat_map_app. Qed.

Lemma marks_errs es : marks (map LError es) = [].
Proof. induction es; auto. Qed.

Lemma good_line (n : N) : let l := if n =? 0 then [] else [LGood n] in marks l = repeat true (N.to_nat n) /\ ~ In (LGood 0) l.
Proof. destruct (n =? 0) eqn:E; [apply N.eqb_eq in E; subst n; auto|]. cbn [marks flat_map In]. rewrite app_nil_r. split; auto. intros [X|[]]. injection X as X. lia. Qed.

Lemma loop_found : forall fuel n b off ng tg tb ls segs, is_bytes b -> off <= len b ->
  silo_loop C L ign fuel n b off ng tg tb = Ok (ls, segs) -> exists rs oks,
  holds C (skipn (N.to_nat off) b) rs /\ Forall2 (fun x ok => ok = true <-> agrees C L ign x) rs oks /\
  reported ls = map (fun x => wr_hdr (snd (fst x))) (filter (fun x => negb (snd x)) (combine rs oks)) /\
  totals ls = [(tg + len (filter (fun ok => ok) oks), tb + len (filter negb oks))] /\ map arec segs = filter segb (map snd rs) /\ Forall aud_ok segs /\
  marks ls = (if (tb =? 0) && forallb (fun ok => ok) oks then [] else repeat true (N.to_nat ng) ++ oks) /\ ~ In (LGood 0) ls.
Proof.
  induction fuel as [|fuel IH]; intros n b off ng tg tb ls segs BY LE E; [discriminate E|]. cbn [silo_loop] in E.
  destruct (Rsilo_ReadHeader C b off) as [h| | |] eqn:R1; cbn [bind] in E; try discriminate E. destruct h as [[[hd bl] o1]|].
  - destruct (read_chunk b o1) as [[d o2]| | |] eqn:R2; cbn [bind] in E; try discriminate E.
    destruct (skip_crnl b o2) as [next| | |] eqn:R3; cbn [bind] in E; try discriminate E.
    destruct (audit_one C L ign hd d bl o1 o2) as [[es no]| | |] eqn:A; cbn [bind] in E; try discriminate E.
    destruct (read_record b off hd bl o1 d o2 next BY LE R1 R2 R3) as (H & t & B & E1 & E2 & E3 & E4 & E5 & E6 & E7 & E8).
    pose proof (parse_sorted _ _ _ E3) as S. destruct (audit_one_iff hd B d bl o1 o2 es no S E5 E7 A) as (AG & NO).
    set (w := mkRec hd d) in *.
    assert (SG : forall segs' rs, map arec segs' = filter segb (map snd rs) -> Forall aud_ok segs' ->
      map arec (match no with Some k => [mkAud n o1 o2 hd d k] | None => [] end ++ segs') = filter segb (map snd ((B, w) :: rs)) /\
      Forall aud_ok (match no with Some k => [mkAud n o1 o2 hd d k] | None => [] end ++ segs')).
    { intros segs' rs M F. cbn [map snd filter]. unfold segb at 1. subst w. cbn [wr_hdr]. rewrite NO. destruct (hget hd "WARC-Segment-Number") as [v|] eqn:SN; cbn [option_map app].
      - split; [cbn [map]; rewrite M; reflexivity|]. constructor; [|auto]. split; [exact S|]. cbn [a_hdr a_no]. exists v. auto.
      - split; auto. }
    assert (HO : forall rs, holds C (skipn (N.to_nat next) b) rs -> holds C (skipn (N.to_nat off) b) ((B, w) :: rs)).
    { intros rs X. rewrite E1. econstructor; eauto. }
    destruct es as [|e es].
    + destruct (silo_loop C L ign fuel n b next (ng + 1) (tg + 1) tb) as [[ls' segs']| | |] eqn:Q; cbn [bind] in E; try discriminate E. injection E as <- <-.
      apply IH in Q; [|auto|lia]. destruct Q as (rs & oks & Q1 & Q2 & Q3 & Q5 & Q6 & Q7 & Q8 & Q9). destruct (SG _ _ Q6 Q7) as (SG1 & SG2).
      exists ((B, w) :: rs), (true :: oks). split; [auto|]. split; [constructor; [|auto]; split; [intros _; apply AG; auto|auto]|].
      split; [exact Q3|].
      split; [rewrite Q5; cbn [filter negb]; rewrite len_cons; replace (tg + 1 + len (filter (fun ok => ok) oks)) with (tg + (1 + len (filter (fun ok => ok) oks))) by lia; reflexivity|]. split; [auto|]. split; [auto|]. split; [|auto].
      rewrite Q8. cbn [forallb andb]. destruct ((tb =? 0) && forallb (fun ok => ok) oks); auto. rewrite N2Nat.inj_add, repeat_app, <- app_assoc. reflexivity.
    + destruct (silo_loop C L ign fuel n b next 0 tg (tb + 1)) as [[ls' segs']| | |] eqn:Q; cbn [bind] in E; try discriminate E. injection E as <- <-.
      apply IH in Q; [|auto|lia]. destruct Q as (rs & oks & Q1 & Q2 & Q3 & Q5 & Q6 & Q7 & Q8 & Q9). destruct (SG _ _ Q6 Q7) as (SG1 & SG2).
      exists ((B, w) :: rs), (false :: oks). split; [auto|]. split; [constructor; [|auto]; split; [discriminate|intros X; apply AG in X; discriminate X]|].
      split. { rewrite (reported_app (if ng =? 0 then [] else [LGood ng])). replace (reported (if ng =? 0 then [] else [LGood ng])) with (@nil header) by (destruct (ng =? 0); auto).
        cbn [app map]. change (reported (LError e :: map LError es ++ LReport hd o1 o2 :: ls')) with (reported (map LError es ++ LReport hd o1 o2 :: ls')).
        rewrite reported_app, reported_errs. cbn [app combine filter snd negb map fst]. change (reported (LReport hd o1 o2 :: ls')) with (hd :: reported ls'). rewrite Q3. reflexivity. }
      split. { rewrite (totals_app (if ng =? 0 then [] else [LGood ng])). replace (totals (if ng =? 0 then [] else [LGood ng])) with (@nil (N * N)) by (destruct (ng =? 0); auto).
        cbn [app map]. change (totals (LError e :: map LError es ++ LReport hd o1 o2 :: ls')) with (totals (map LError es ++ LReport hd o1 o2 :: ls')).
        rewrite totals_app, totals_errs. cbn [app]. change (totals (LReport hd o1 o2 :: ls')) with (totals ls'). rewrite Q5. cbn [filter negb]. rewrite len_cons. replace (tb + 1 + len (filter negb oks)) with (tb + (1 + len (filter negb oks))) by lia. reflexivity. }
      split; [auto|]. split; [auto|]. destruct (good_line ng) as (G1 & G2). cbn [forallb]. rewrite andb_false_r. split.
      * rewrite marks_app, G1. f_equal.
        change (marks (map LError es ++ LReport hd o1 o2 :: ls') = false :: oks). rewrite marks_app, marks_errs. change (marks (LReport hd o1 o2 :: ls')) with (false :: marks ls'). rewrite Q8. replace (tb + 1 =? 0) with false by lia. reflexivity.
      * rewrite in_app_iff. intros [X|[X|X]]; [auto|discriminate X|]. apply in_app_or in X. destruct X as [X|[X|X]]; [|discriminate X|auto]. { apply in_map_iff in X. destruct X as (? & X & _). discriminate X. }
  - injection E as <- <-. exists [], []. unfold Rsilo_ReadHeader in R1.
    assert (Z : skipn (N.to_nat off) b = []).
    { unfold file_read in R1. destruct (skipn (N.to_nat off) b) as [|c r]; auto. exfalso.
      change (firstn (N.to_nat 4096) (c :: r)) with (c :: firstn (pred (N.to_nat 4096)) r) in R1. cbv iota beta zeta in R1.
      destruct (gunzip _) as [[t rp]|]; [|discriminate R1]. unfold guard in R1. destruct (_ <=? _); cbn [bind] in R1; [|discriminate R1].
      destruct (Gzip_ReadAa rp); cbn [bind] in R1; try discriminate R1. destruct (Header_Parse _ _); cbn [bind] in R1; discriminate R1. }
    rewrite Z. split; [constructor|]. split; [auto|]. split; [destruct (negb (tb =? 0) && negb (ng =? 0)); auto|]. split.
    + rewrite totals_app. replace (totals (if negb (tb =? 0) && negb (ng =? 0) then [LGood ng] else [])) with (@nil (N * N)) by (destruct (negb (tb =? 0) && negb (ng =? 0)); auto).
      cbn [app totals flat_map filter]. change (len (@nil bool)) with 0. rewrite !N.add_0_r. auto.
    + split; [auto|]. split; [auto|]. destruct (good_line ng) as (G1 & G2). cbn [forallb]. rewrite andb_true_r, app_nil_r. destruct (tb =? 0) eqn:TB; cbn [negb andb].
      * split; auto. cbn. intros [X|[]]. discriminate X.
      * replace (if negb (ng =? 0) then [LGood ng] else []) with (if ng =? 0 then [] else [LGood ng]) by (destruct (ng =? 0); auto).
        rewrite marks_app, G1. split; [apply app_nil_r|]. rewrite in_app_iff. intros [X|[X|[]]]; auto. discriminate X.
Qed.

Lemma silos_found : forall files ls segs, Forall (fun f => is_bytes (snd f)) files -> audit_silos C L ign files = Ok (ls, segs) -> exists vs,
  map (fun v => (v_no v, v_file v)) vs = files /\ Forall (told_silo C L ign) vs /\ ls = flat_map v_out vs /\
  map arec segs = filter segb (map snd (flat_map v_recs vs)) /\ Forall aud_ok segs.
Proof.
  induction files as [|(n, b) files IH]; intros ls segs BY E; cbn [audit_silos] in E.
  - injection E as <- <-. exists []. split; [reflexivity|]. split; [constructor|]. split; [auto|]. split; auto.
  - inversion BY as [|? ? B1 B2]; subst. cbn [snd] in B1. unfold audit_silo in E.
    destruct (silo_loop C L ign (S (List.length b)) n b 0 0 0 0) as [[l1 s1]| | |] eqn:Q; cbn [bind] in E; try discriminate E.
    destruct (audit_silos C L ign files) as [[l2 s2]| | |] eqn:R; cbn [bind] in E; try discriminate E. injection E as <- <-.
    apply loop_found in Q; [|auto|lia]. destruct Q as (rs & oks & Q1 & Q2 & Q3 & Q5 & Q6 & Q7 & Q8 & Q9).
    destruct (IH l2 s2 B2 eq_refl) as (vs & I1 & I2 & I3 & I4 & I5). exists (mkV n b rs (LSilo n :: l1) :: vs). cbn [skipn N.to_nat] in Q1.
    cbn [map v_no v_file flat_map v_out v_recs app]. split; [rewrite I1; auto|]. split; [|split; [rewrite I3; auto|split; [|apply Forall_app; auto]]].
    + constructor; [|auto]. split; [exact Q1|]. exists l1, oks. split; [reflexivity|]. auto.
    + rewrite !map_app, filter_app. congruence.
Qed.

Lemma holds_sorted b rs : holds C b rs -> Forall (fun x => hsorted (h_fields (wr_hdr (snd x)))) rs.
Proof. induction 1; constructor; auto. eapply parse_sorted; eauto. Qed.

Lemma parted_filter ws : Forall (fun w => hsorted (h_fields (wr_hdr w))) ws -> parted ws (filter segb ws) (filter (fun w => negb (segb w)) ws).
Proof.
  intros F. split; [|split].
  - clear F. induction ws as [|w ws IH]; auto. cbn [filter]. destruct (segb w); cbn [negb app]; [auto|]. apply Permutation_cons_app. auto.
  - apply Forall_forall. intros w X. apply filter_In in X. destruct X as (X & S). rewrite Forall_forall in F. unfold segb in S.
    destruct (hget (wr_hdr w) "WARC-Segment-Number") as [v|] eqn:G; [|discriminate S]. exists v. apply has_get; auto.
  - apply Forall_forall. intros w X. apply filter_In in X. destruct X as (X & S). rewrite Forall_forall in F. unfold segb in S. intros (v & V). apply has_get in V; auto. rewrite V in S. discriminate S.
Qed.

(** * Objects *)

Lemma follows_true oid ap x : hsorted (h_fields (a_hdr x)) -> follows C oid ap x = Ok true -> a_no x = (a_no ap + 1)%Z /\ (a_no ap <> 2 ^ 31 - 1)%Z /\
  exists t, has (a_hdr x) "WARC-Segment-Origin-ID" (str "<" ++ prefix ++ oid ++ str ">" ++ t).
Proof.
  intros S. unfold follows. destruct (a_no ap =? 2 ^ 31 - 1)%Z eqn:M; [discriminate|]. destruct (a_no x =? a_no ap + 1)%Z eqn:N1; cbn [negb]; [|discriminate].
  fold (hget (a_hdr x) "WARC-Segment-Origin-ID"). destruct (hget (a_hdr x) "WARC-Segment-Origin-ID") as [[|c o]|] eqn:G; try discriminate.
  destruct (c =? 60) eqn:C1; cbn [negb]; [|discriminate]. apply N.eqb_eq in C1. subst c. destruct (_ <? len prefix); [discriminate|].
  destruct (bytes_eqb (firstn (List.length prefix) o) prefix) eqn:P; cbn [negb]; [|discriminate]. apply bytes_eqb_true in P.
  destruct (bytes_eqb (firstn (List.length oid) (skipn (List.length prefix) o)) oid) eqn:I; cbn [negb]; [|discriminate]. apply bytes_eqb_true in I.
  destruct (skipn (List.length oid) (skipn (List.length prefix) o)) as [|c t] eqn:T; [discriminate|]. intros E. injection E as E. apply N.eqb_eq in E. subst c.
  split; [lia|]. split; [lia|]. exists t. apply has_get; [auto|]. rewrite G. f_equal. change (str "<" ++ prefix ++ oid ++ str ">" ++ t) with (60 :: prefix ++ oid ++ 62 :: t).
  f_equal. rewrite <- (firstn_skipn (List.length prefix) o) at 1. rewrite P. f_equal. rewrite <- (firstn_skipn (List.length oid) (skipn (List.length prefix) o)), I. f_equal. auto.
Qed.

(* segments one after the other *)
Fixpoint run_of (oid : bytes) (k : Z) (xs : list aud) : Prop :=
  match xs with
  | [] => True
  | x :: r => a_no x = k /\ (k <= 2 ^ 31 - 1)%Z /\ (exists t, has (a_hdr x) "WARC-Segment-Origin-ID" (str "<" ++ prefix ++ oid ++ str ">" ++ t)) /\ run_of oid (k + 1) r
  end.
Definition unlast (x : aud) : Prop := hasnt (a_hdr x) "WARC-Segment-Total-Length".

Lemma pass_found oid : forall l ap d mv ap' d' mv' l' z, Forall aud_ok l -> (a_no ap <= 2 ^ 31 - 1)%Z ->
  pass C oid ap d mv l = Ok (ap', d', mv', l', z) -> exists xs,
  Permutation l (xs ++ l') /\ run_of oid (a_no ap + 1) xs /\ d' = d ++ List.concat (map a_data xs) /\
  match z with
  | None => Forall unlast xs /\ ap' = last xs ap /\ mv' = (mv || match xs with [] => false | _ => true end)%bool
  | Some x => exists ys, xs = ys ++ [x] /\ Forall unlast ys
  end.
Proof.
  induction l as [|x l IH]; intros ap d mv ap' d' mv' l' z F M E; cbn [pass] in E.
  - injection E as <- <- <- <- <-. exists []. cbn [map List.concat app]. split; [auto|]. split; [exact I|]. split; [rewrite app_nil_r; auto|]. split; [auto|]. split; [auto|rewrite orb_false_r; auto].
  - inversion F as [|? ? F1 F2]; subst. destruct (follows C oid ap x) as [y| | |] eqn:Y; cbn [bind] in E; try discriminate E. destruct y.
    + destruct F1 as (S & _). apply follows_true in Y; auto. destruct Y as (Y1 & Y2 & Y3).
      fold (hget (a_hdr x) "WARC-Segment-Total-Length") in E. destruct (hget (a_hdr x) "WARC-Segment-Total-Length") as [v|] eqn:T.
      * injection E as <- <- <- <- <-. exists [x]. cbn [map List.concat app]. rewrite app_nil_r. split; [auto|]. split; [cbn [run_of]; split; [auto|split; [lia|auto]]|].
        split; [auto|]. exists []. split; auto.
      * apply IH in E; auto; [|lia]. destruct E as (xs & E1 & E2 & E3 & E4). exists (x :: xs). split; [cbn [app]; auto|].
        split; [cbn [run_of]; rewrite Y1 in E2; split; [auto|]; split; [lia|auto]|].
        split; [rewrite E3, <- app_assoc; auto|]. apply hasnt_get in T. destruct z as [z|].
        -- destruct E4 as (ys & -> & E4). exists (x :: ys). split; [auto|constructor; auto].
        -- destruct E4 as (E4 & E5 & E6). split; [constructor; auto|]. split; [|rewrite E6, orb_true_r; auto].
           rewrite E5. destruct xs as [|y xs]; [auto|]. cbn [last]. clear. revert y. induction xs as [|z xs IH]; intros y; auto. cbn [last] in *. auto.
    + destruct (pass C oid ap d mv l) as [[[[[ap1 d1] mv1] l1] z1]| | |] eqn:Q; cbn [bind] in E; try discriminate E. injection E as <- <- <- <- <-.
      destruct (IH _ _ _ _ _ _ _ _ F2 M Q) as (xs & E1 & E2 & E3 & E4). exists xs. split; [|auto]. rewrite E1. apply Permutation_middle.
Qed.

Lemma num_numbered a k : aud_ok a -> 0 < k < 2 ^ 31 -> a_no a = Z.of_N k <-> numbered (arec a) k.
Proof.
  intros (S & v & V & ->) K. unfold numbered, num. cbn [arec wr_hdr]. split.
  - intros E. destruct (strtoul0 v) as [[n r]|] eqn:Q; [|lia]. exists v, n, r. split; [apply has_get; auto|]. split; [apply strtoul0_iff; auto|]. unfold to_int in E. revert E. set (m := n mod 2 ^ 32).
    assert (m < 2 ^ 32) by (apply N.mod_lt; discriminate). clearbody m. destruct (m <? 2 ^ 31) eqn:X; lia.
  - intros (v' & n & r & X & Q & E). apply has_get in X; auto. assert (v' = v) as -> by congruence. apply strtoul0_iff in Q. rewrite Q. unfold to_int. rewrite E.
    destruct (k <? 2 ^ 31) eqn:Y; lia.
Qed.

Lemma final_iff ap0 x d es : hsorted (h_fields (a_hdr ap0)) -> hsorted (h_fields (a_hdr x)) -> audit_final C L ap0 x d = Ok es ->
  es = [] <-> has (a_hdr x) "WARC-Segment-Total-Length" (dec (len d)) /\ has (a_hdr ap0) "WARC-Payload-Digest" (str "sha256:" ++ z_sha L d) /\
    named_for C L (a_hdr ap0) (z_sha L d).
Proof.
  intros S1 S2. unfold audit_final. destruct (check_digest_header _ _ _) as [e2| | |] eqn:E2; cbn [bind]; try discriminate.
  destruct (check_id _ _ _ _) as [e3| | |] eqn:E3; cbn [bind]; try discriminate. intros E. injection E as <-.
  apply check_digest_iff in E2; auto. apply check_id_iff in E3; auto. rewrite !app_nil_iff, check_header_iff, E2, E3 by auto. tauto.
Qed.

Lemma later_of oid d x : forall ys k, (forall y, In y (ys ++ [x]) -> aud_ok y) -> 0 < k -> run_of oid (Z.of_N k) (ys ++ [x]) -> Forall unlast ys ->
  has (a_hdr x) "WARC-Segment-Total-Length" (dec (len d)) -> later_ok C oid d k (map arec (ys ++ [x])).
Proof.
  induction ys as [|y ys IH]; intros k A K R U T.
  - cbn [app map later_ok run_of] in *. destruct R as (R1 & R2 & R3 & _). split; [|auto]. apply num_numbered; [apply A; left; auto|lia|auto].
  - cbn [app run_of] in R. destruct R as (R1 & R2 & R3 & R4). inversion U as [|? ? U1 U2]; subst. cbn [app map later_ok].
    split; [apply num_numbered; [apply A; left; auto|lia|auto]|]. split; [exact R3|].
    assert (X : later_ok C oid d (k + 1) (map arec (ys ++ [x]))).
    { apply IH; auto; [intros z Hz; apply A; right; auto|lia|]. replace (Z.of_N (k + 1)) with (Z.of_N k + 1)%Z by lia. auto. }
    destruct (map arec (ys ++ [x])) as [|w r] eqn:M; [destruct X|]. split; [exact U1|]. exact X.
Qed.

Lemma later_last oid d : forall ws k, later_ok C oid d k ws -> exists w r, ws = r ++ [w] /\ has (wr_hdr w) "WARC-Segment-Total-Length" (dec (len d)).
Proof.
  induction ws as [|w ws IH]; intros k X; [destruct X|]. cbn [later_ok] in X. destruct X as (_ & _ & X). destruct ws as [|w2 ws].
  - exists w, []. auto.
  - destruct X as (_ & X). destruct (IH _ X) as (z & r & E & T). exists z, (w :: r). rewrite E. auto.
Qed.

Lemma in_perm_ok l xs l' : Forall aud_ok l -> Permutation l (xs ++ l') -> Forall aud_ok xs /\ Forall aud_ok l'.
Proof. intros F P. apply Forall_app. rewrite <- P. auto. Qed.

Definition lefts (l : list aud) := map (fun x => LLeft (a_silo x) (a_o1 x) (a_o2 x) (a_no x)) l.

Lemma pend_found ap0 : aud_ok ap0 -> a_no ap0 = 1%Z -> forall fuel l ls l' more, Forall aud_ok l ->
  pend_loop C L fuel ap0 ap0 (a_data ap0) l = Ok (ls, l', more) -> exists xs, Permutation l (xs ++ l') /\
  if more : bool then told C L (map arec (ap0 :: xs)) (LObject (h_id (a_hdr ap0)) :: ls) else exists k, ls = [LMissing k].
Proof.
  intros A0 N0. induction fuel as [|fuel IH]; intros l ls l' more F E; [discriminate E|]. cbn [pend_loop] in E.
  destruct (pass C (Header_Get_Id (a_hdr ap0)) ap0 (a_data ap0) false l) as [[[[[ap d] mv] l1] z]| | |] eqn:P; cbn [bind] in E; try discriminate E.
  assert (LE0 : (a_no ap0 <= 2 ^ 31 - 1)%Z) by lia. destruct (pass_found _ _ _ _ _ _ _ _ _ _ F LE0 P) as (xs & P1 & P2 & P3 & P4). destruct (in_perm_ok _ _ _ F P1) as (F1 & F2). destruct z as [x|].
  - destruct P4 as (ys & -> & P4). assert (FX : Forall aud_ok [x]) by (apply Forall_app in F1; apply F1). inversion FX as [|? ? X1 _]; subst.
    destruct (audit_final C L ap0 x _) as [es| | |] eqn:Q; cbn [bind] in E; try discriminate E.
    apply final_iff in Q; [|apply A0|apply X1]. set (d := a_data ap0 ++ _) in Q.
    assert (OB : es = [] <-> object C L (map arec (ap0 :: ys ++ [x]))).
    { rewrite Q. assert (DD : d = List.concat (map wr_data (map arec (ap0 :: ys ++ [x])))) by (rewrite map_map; reflexivity). unfold object. split.
      - intros (T1 & T2 & T3). exists (arec ap0), (map arec (ys ++ [x])), d. split; [reflexivity|]. split; [auto|].
        split; [apply num_numbered; [auto|lia|auto]|]. split; [auto|]. split; [auto|]. apply later_of; [rewrite Forall_forall in F1; auto|lia| |auto|auto].
        replace (Z.of_N 2) with (a_no ap0 + 1)%Z by lia. auto.
      - intros (w & r & t & T1 & T2 & T3 & T4 & T5 & T6). rewrite <- DD in T2. subst t. cbn [map] in T1. injection T1 as <- <-.
        destruct (later_last _ _ _ _ T6) as (w & r & T7 & T8). rewrite map_app in T7. cbn [map] in T7. apply app_inj_tail in T7. destruct T7 as (_ & <-).
        split; [auto|]. split; auto. }
    destruct es as [|e es]; injection E as <- <- <-; exists (ys ++ [x]); (split; [exact P1|]); eexists (arec ap0), (map arec (ys ++ [x])), _; (split; [reflexivity|]); (split; [reflexivity|]).
    + split; [|auto]. split; [intros _; apply OB; reflexivity|auto].
    + split; [|right; exists e; left; auto]. rewrite <- OB. split; discriminate.
  - destruct P4 as (P4 & P5 & P6). destruct xs as [|y xs].
    + cbn [last] in P5. cbn [orb] in P6. cbn [map List.concat] in P3. rewrite app_nil_r in P3. subst ap mv d. apply IH in E; auto. destruct E as (xs & E1 & E2). exists xs. split; [|auto]. rewrite P1. auto.
    + subst mv. cbn [orb] in E. destruct (a_no ap =? 2 ^ 31 - 1)%Z; [discriminate E|]. injection E as <- <- <-. exists (y :: xs). split; eauto.
Qed.

Lemma take_perm : forall l x r, take_first l = Some (x, r) -> Permutation l (x :: r) /\ a_no x = 1%Z.
Proof.
  induction l as [|y l IH]; intros x r E; [discriminate E|]. cbn [take_first] in E. destruct (a_no y =? 1)%Z eqn:Q.
  - injection E as <- <-. split; [auto|lia].
  - destruct (take_first l) as [[z q]|]; [|discriminate E]. injection E as <- <-. destruct (IH _ _ eq_refl) as (P & N1). split; [rewrite P; constructor|auto].
Qed.

Lemma pending_found : forall fuel l out, Forall aud_ok l -> audit_pending C L fuel l = Ok out -> exists groups rest tl,
  out = List.concat (map snd groups) ++ tl /\ Permutation (map arec l) (List.concat (map fst groups) ++ rest) /\
  Forall (fun g => told C L (fst g) (snd g)) groups /\ (rest = [] -> tl = []) /\ (rest <> [] -> exists x, In x tl /\ complaint x).
Proof.
  induction fuel as [|fuel IH]; intros l out F E; [discriminate E|]. cbn [audit_pending] in E. destruct (take_first l) as [[ap0 l0]|] eqn:T.
  - destruct (take_perm _ _ _ T) as (P0 & N0). destruct (in_perm_ok l [ap0] l0 F P0) as (F0 & F1). inversion F0 as [|? ? A0 _]; subst.
    destruct (pend_loop C L fuel ap0 ap0 (a_data ap0) l0) as [[[ls l1] more]| | |] eqn:Q; cbn [bind] in E; try discriminate E.
    apply pend_found in Q; auto. destruct Q as (xs & P1 & Q). destruct more.
    + destruct (audit_pending C L fuel l1) as [ls'| | |] eqn:R; cbn [bind] in E; try discriminate E. injection E as <-.
      destruct (in_perm_ok _ _ _ F1 P1) as (_ & F2). destruct (IH l1 ls' F2 R) as (gs & rest & tl & I1 & I2 & I3 & I4 & I5).
      exists ((map arec (ap0 :: xs), LObject (h_id (a_hdr ap0)) :: ls) :: gs), rest, tl. cbn [map fst snd List.concat]. rewrite I1.
      split; [unfold Header_Get_Id; rewrite <- ?app_comm_cons, <- ?app_assoc; reflexivity|].
      split; [rewrite P0, P1; cbn [map]; rewrite map_app, I2, <- ?app_comm_cons, <- ?app_assoc; reflexivity|]. split; [constructor; auto|]. auto.
    + destruct Q as (k & ->). injection E as <-. exists [], (map arec l), (LObject (Header_Get_Id (a_hdr ap0)) :: LMissing k :: lefts l1). cbn [map List.concat app].
      split; [reflexivity|]. split; [auto|]. split; [auto|]. split.
      * intros X. exfalso. apply Permutation_sym in P0. destruct l; [apply Permutation_sym, Permutation_nil in P0; discriminate P0|discriminate X].
      * intros _. exists (LMissing k). split; [right; left; auto|exact I].
  - injection E as <-. exists [], (map arec l), (lefts l). cbn [map List.concat app]. split; [reflexivity|]. split; [auto|]. split; [auto|]. split.
    + intros X. destruct l; [reflexivity|discriminate X].
    + intros X. destruct l as [|a l]; [contradiction|]. eexists. split; [left; reflexivity|exact I].
Qed.

Lemma report_found fuel files out : Forall (fun f => is_bytes (snd f)) files -> main_audit C L ign fuel files = Ok out -> exists vs groups rest plain tl,
  out = flat_map v_out vs ++ flat_map snd groups ++ tl /\
  map (fun v => (v_no v, v_file v)) vs = files /\ Forall (told_silo C L ign) vs /\
  parted (map snd (flat_map v_recs vs)) (flat_map fst groups ++ rest) plain /\
  Forall (fun g => told C L (fst g) (snd g)) groups /\ (rest = [] -> tl = []) /\ (rest <> [] -> exists x, In x tl /\ complaint x).
Proof.
  intros BY. unfold main_audit. destruct (audit_silos C L ign files) as [[ls segs]| | |] eqn:A; cbn [bind]; try discriminate.
  destruct (audit_pending C L fuel segs) as [ls'| | |] eqn:P; cbn [bind]; try discriminate. intros E. injection E as <-.
  destruct (silos_found _ _ _ BY A) as (vs & S1 & S2 & S3 & S4 & S5). destruct (pending_found _ _ _ S5 P) as (gs & rest & tl & P1 & P2 & P3 & P4 & P5).
  set (ws := map snd (flat_map v_recs vs)) in *.
  exists vs, gs, rest, (filter (fun w => negb (segb w)) ws), tl. rewrite <- !flat_map_concat_map in P1, P2. rewrite P1, S3. split; [auto|]. split; [auto|]. split; [auto|]. split; [|auto].
  rewrite S4 in P2.
  assert (F : Forall (fun w => hsorted (h_fields (wr_hdr w))) ws).
  { unfold ws. clear - S2. apply Forall_map. apply Forall_forall. intros x X. apply in_flat_map in X. destruct X as (v & V & X). rewrite Forall_forall in S2. destruct (S2 v V) as (H & _).
    apply holds_sorted in H. rewrite Forall_forall in H. apply H. auto. }
  destruct (parted_filter ws F) as (Q1 & Q2 & Q3). split; [|split; [|auto]].
  - etransitivity; [exact Q1|]. apply Permutation_app_tail. exact P2.
  - eapply Permutation_Forall; [exact P2|exact Q2].
Qed.

Lemma told_object ws out : told C L ws out -> no_complaint out -> object C L ws.
Proof.
  intros (w & r & es & -> & -> & O & X) NC. apply O. destruct X as [X|(e & X)]; auto. exfalso. unfold no_complaint in NC. rewrite Forall_forall in NC.
  specialize (NC (LError e)). apply NC. right. auto.
Qed.

Lemma totals_in ls g b : In (g, b) (totals ls) -> In (LTotal g b) ls.
Proof. unfold totals. rewrite in_flat_map. intros (x & X & Y). destruct x; cbn in Y; try contradiction. destruct Y as [Y|[]]. injection Y as -> ->. auto. Qed.

Lemma sound_found fuel files out : Forall (fun f => is_bytes (snd f)) files -> main_audit C L ign fuel files = Ok out -> no_complaint out -> exists rss objs plain,
  Forall2 (fun f rs => holds C (snd f) rs) files rss /\ Forall (agrees C L ign) (List.concat rss) /\
  parted (map snd (List.concat rss)) (List.concat objs) plain /\ Forall (object C L) objs.
Proof.
  intros BY E NC. destruct (report_found _ _ _ BY E) as (vs & gs & rest & plain & tl & E1 & E2 & E3 & E4 & E5 & E6 & E7). subst out. unfold no_complaint in NC.
  rewrite !Forall_app in NC. destruct NC as (N1 & N2 & N3). exists (map v_recs vs), (map fst gs), plain. rewrite <- !flat_map_concat_map. split; [|split; [|split]].
  - rewrite <- E2. clear - E3. induction vs as [|v vs IH]; [constructor|]. inversion E3 as [|? ? (H & _) F]; subst. cbn [map]. constructor; auto.
  - clear - E3 N1. induction vs as [|v vs IH]; [constructor|]. cbn [flat_map]. inversion E3 as [|? ? (_ & body & oks & V1 & V2 & _ & V4 & _) F]; subst. cbn [flat_map] in N1. apply Forall_app in N1. destruct N1 as (N0 & N1).
    apply Forall_app. split; [|auto]. rewrite V1 in N0. inversion N0 as [|? ? _ N2]; subst.
    assert (Z : len (filter negb oks) = 0). { rewrite Forall_forall in N2. apply (N2 (LTotal (len (filter (fun ok => ok) oks)) (len (filter negb oks)))). apply totals_in. rewrite V4. left. auto. }
    clear - V2 Z. induction V2 as [|x ok rs oks X F IH]; [constructor|]. destruct ok; cbn [filter negb] in Z; [|rewrite len_cons in Z; lia]. constructor; [apply X; auto|auto].
  - destruct rest as [|r rest]; [rewrite app_nil_r in E4; auto|]. exfalso. destruct E7 as (x & X & Q); [discriminate|]. rewrite Forall_forall in N3. specialize (N3 _ X). destruct x; auto.
  - apply Forall_map. rewrite Forall_forall in *. intros g G. apply (told_object _ (snd g)); auto. unfold no_complaint. rewrite Forall_forall. intros x X. apply N2.
    apply in_flat_map. exists g. auto.
Qed.
End Audit.
