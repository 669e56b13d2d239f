(* Rebuilding: the steps of the machine *)
From Coq Require Import String Sorting.Sorted.
From Coq Require Import ZifyBool ZifyNat ZifyN.
From Verif Require Import Base BaseLemmas ListLemmas IndexModel HeaderModel HeaderSpec HeaderProofs
  InflateSpec InflateProofs GzipModel GzipSpec GzipProofs ProgModel StoreModel StoreSpec StoreHdr StoreGet
  RebuildModel RebuildSpec RebuildProofs.
Open Scope string_scope.
Open Scope list_scope.
Open Scope N_scope.

Lemma len_pos (p : bytes) : p <> [] -> 1 <= len p.
Proof. destruct p; [congruence|]. rewrite len_cons. lia. Qed.

Lemma firstn_z (p : bytes) : firstn (Z.to_nat (Z.of_N (len p))) p = p.
Proof. apply firstn_all2. unfold len. lia. Qed.
Lemma skipn_z (p : bytes) : skipn (Z.to_nat (Z.of_N (len p))) p = [].
Proof. apply skipn_all2. unfold len. lia. Qed.
Lemma firstn_lz (p : bytes) : firstn (N.to_nat (len p)) p = p.
Proof. apply firstn_all2. unfold len. lia. Qed.

Lemma write_aa (a : bytes) x (z t : bytes) : x = 2 \/ x = 4 -> List.length z = 8%nat ->
  let m := ([31; 139; 8; 4; 0; 0; 0; 0; x; 3; 12; 0; 65; 97; 8; 0] ++ z) ++ t in
  Gzip_WriteAa (a ++ m) (len a) (Z.of_N (len m)) =
  Ok (a ++ ([31; 139; 8; 4; 0; 0; 0; 0; x; 3; 12; 0; 65; 97; 8; 0] ++ le_enc 8 (len m)) ++ t).
Proof.
  intros X Z. set (h := [31; 139; 8; 4; 0; 0; 0; 0; x; 3; 12; 0; 65; 97; 8; 0]). intros m.
  assert (Lm : (24 <= List.length m)%nat) by (unfold m; rewrite !app_length, Z; change (List.length h) with 16%nat; lia).
  unfold Gzip_WriteAa, guard. replace (0 <? Z.of_N (len m))%Z with true by (unfold len; lia). cbn [bind].
  assert (R : file_read (a ++ m) (len a) 16 = h).
  { unfold file_read. rewrite skipn_len. unfold m. rewrite <- app_assoc. apply firstn_cat. reflexivity. }
  rewrite R. change (len h =? 16) with true. cbn [bind]. replace (Gzip_GoodAa h) with (Ok true).
  2: { symmetry. pose proof (good_aa x [] X) as G. rewrite app_nil_r in G. exact G. }
  cbn [bind]. f_equal. rewrite N2Z.id. pose proof (le_enc_length 8 (len m)) as L8. revert L8. generalize (le_enc 8 (len m)). intros e L8.
  change 16 with (N.of_nat 16). rewrite <- (app_nil_r m). rewrite write_at by lia. rewrite L8, app_nil_r. f_equal.
  unfold m. destruct z as [|? [|? [|? [|? [|? [|? [|? [|? [|]]]]]]]]]; try discriminate. unfold h. rewrite <- !app_assoc. reflexivity.
Qed.

Section Main.
Variable C : conf.
Variable L : zlib.
Variable bufsiz : N.
Hypothesis CP : clean_prefix (c_prefix C).
Hypothesis CB : is_bytes (c_prefix C).
Hypothesis CN : 16 <= c_idsize C <= 64.
Hypothesis ZO : zlib_ok L.
Hypothesis ZR : zlib_roomy L.
Hypothesis BZ : bufsiz <= 65536.
Variable spare : bool.
Notation prefix := (c_prefix C).
Notation rebuild := (RebuildModel.rebuild L).
Notation rebuild_pieces := (rebuild_pieces C L bufsiz spare).
Notation rebuild_process := (rebuild_process C L bufsiz).
Notation process_loop := (process_loop C L bufsiz).

Definition small (p : bytes) : Prop := spare = true \/ len p < 65536.

Lemma pieces_cons rb p ps : small p ->
  rebuild_pieces rb (p :: ps) = bind (rebuild_process rb p) (fun rb => rebuild_pieces rb ps).
Proof.
  intros H. cbn [RebuildModel.rebuild_pieces]. replace ((OBUF <=? len p) && negb spare) with false; [reflexivity|].
  unfold OBUF. destruct H as [->|H]; [rewrite andb_false_r; reflexivity|]. replace (65536 <=? len p) with false by lia. reflexivity.
Qed.

Lemma process_nil rb : rebuild_process rb [] = Ok rb.
Proof. reflexivity. Qed.

Lemma process_some rb p : p <> [] -> exists n, rebuild_process rb p = process_loop (S (S (S (S n)))) rb p.
Proof. intros H. unfold RebuildModel.rebuild_process. exists (4 * List.length p)%nat. reflexivity. Qed.

Lemma loop_some n rb p : p <> [] -> process_loop (S n) rb p =
  match b_state L rb with
  | RStart => let* _ := guard (len (b_hdr L rb) =? 0) in take_header C L bufsiz rb p
  | RHead => take_header C L bufsiz rb p
  | RFix => let* (rb, p) := take_fix C L bufsiz rb p in process_loop n rb p
  | RBody => let* (rb, p) := take_body L rb p in let* rb := do_deflate L rb in process_loop n rb p
  | RDeflate => let* rb := do_deflate L rb in process_loop n rb p
  | RSkip => let (rb, p) := take_skip L rb p in process_loop n rb p
  end.
Proof. intros H. destruct p; [congruence|reflexivity]. Qed.

Lemma loop_nil n rb : process_loop n rb [] = Ok rb.
Proof. destruct n; reflexivity. Qed.

(** * Writing the header *)

Lemma vsb_ok t : is_bytes t -> len t < 2 ^ 61 ->
  exists p, Gzip_Vsb (z_gzip L) 0 t = Ok p /\ gunzip p = Some (t, []) /\ len p <= len t + len t / 64 + 100 /\ aa_member p.
Proof.
  intros B T. destruct (vsb_cases L ZO 0 t B T) as [A|(p & A1 & A2 & A3 & A4 & _)]; [|exists p; split; [exact A1|split; [exact A2|split; [apply A3|exact A4]]]].
  exfalso. destruct (zr_gzip L ZR t B ltac:(lia)) as (xfl & r & X & E). destruct (zo_gzip L ZO 0 t B ltac:(lia)) as (_ & Z & _).
  revert A. unfold Gzip_Vsb. rewrite E at 1. rewrite good_aa by exact X. cbn [bind guard].
  replace (len (z_gzip L 0 t) <? 24) with false by lia. discriminate.
Qed.

(* The header member of the new record *)
Definition new_head (hd : header) (H : bytes) : Prop :=
  gunzip H = Some (warc_text prefix hd, []) /\ wf_header hd /\ aa_member H /\
  len H <= len (warc_text prefix hd) + len (warc_text prefix hd) / 64 + 100.

Lemma put_ok rb hd st rlen i : hgood hd -> idgood (h_id hd) -> hlen prefix hd < 2 ^ 61 ->
  exists H, new_head hd H /\ put_header C L rb hd st rlen i =
    Ok (mkRb L st (b_out L rb ++ H) [] (b_fix L rb) rlen (len (b_out L rb ++ H)) (z_init L) i (b_sha L rb) None (b_clen L rb)).
Proof.
  intros G I T. unfold hlen in T.
  destruct (vsb_ok (Header_Serialize prefix hd)) as (p & E & A & B & D).
  { apply ser_bytes; auto. apply I. } { exact T. }
  rewrite ser_text in *. exists p. split; [split; [exact A|split; [apply good_wf; auto|split; [exact D|exact B]]]|].
  unfold put_header. rewrite ser_text, E. reflexivity.
Qed.

(** * States *)

Definition in_head (base a : bytes) (rb : rebuild) : Prop :=
  ((b_state L rb = RStart /\ a = []) \/ b_state L rb = RHead) /\ b_out L rb = base /\ b_hdr L rb = a /\ b_h L rb = None.

Definition in_body (base H d o : bytes) (k : N) (rb : rebuild) : Prop :=
  b_state L rb = RBody /\ b_out L rb = base ++ H ++ o /\ b_hdr L rb = [] /\ b_h L rb = None /\
  b_rlen L rb = Z.of_N k /\ b_start L rb = len (base ++ H) /\ fed L (b_zs L rb) d o /\ len o <= 131072 * len d.

Definition in_fix (base a : bytes) (h2 : header) (k : N) (rb : rebuild) : Prop :=
  b_state L rb = RFix /\ b_out L rb = base /\
  (exists h, b_h L rb = Some h /\ Header_Delete h (str "WARC-record-digest") = Ok h2) /\ firstn (List.length a) (b_fix L rb) = a /\ b_sha L rb = a /\
  b_rlen L rb = Z.of_N (len a) /\ b_clen L rb = Z.of_N k.

Definition in_skip (out : bytes) (k : Z) (rb : rebuild) : Prop :=
  b_state L rb = RSkip /\ b_out L rb = out /\ b_hdr L rb = [] /\ b_h L rb = None /\ b_rlen L rb = k.

(* The body member of the new record *)
Definition new_body (d B : bytes) : Prop := aa_member B /\ synced B d.

(* Before the next byte is taken the record is complete. *)
Definition closing (base H d : bytes) (rb : rebuild) : Prop :=
  exists k B rb', (k <= 2)%nat /\ new_body d B /\ in_skip (base ++ H ++ B ++ crnlcrnl) 4 rb' /\
    forall n p, p <> [] -> process_loop (k + n) rb p = process_loop n rb' p.

(** * The end of a body *)

Lemma end_ok rb base H d o i : is_bytes (d ++ i) -> len (d ++ i) < 2 ^ 44 -> len i <= 65536 ->
  b_out L rb = base ++ H ++ o -> b_hdr L rb = [] -> b_h L rb = None -> b_rlen L rb = 0%Z -> b_in L rb = i ->
  b_start L rb = len (base ++ H) -> fed L (b_zs L rb) d o -> len o <= 131072 * len d ->
  exists B rb', new_body (d ++ i) B /\ in_skip (base ++ H ++ B ++ crnlcrnl) 4 rb' /\ do_deflate L rb = Ok rb'.
Proof.
  intros Hb Hl Li Eo Eh En Er Ei Es F Lo. unfold do_deflate. rewrite Er. cbn [Z.ltb Z.compare Z.eqb negb].
  destruct (zr_end L ZR _ _ _ i F Li Hb) as (s1 & o1 & s2 & c2 & o2 & D1 & D2 & LL & (xfl & r & HX & HE) & U).
  rewrite Ei. unfold ROOM. rewrite D1. rewrite skipn_all2 by (unfold len; lia). rewrite D2. cbn [bind].
  rewrite Eo, Es. set (m := o ++ o1 ++ o2) in *.
  assert (Em : (base ++ H ++ o) ++ o1 ++ o2 = (base ++ H) ++ m ++ []) by (unfold m; rewrite app_nil_r, <- !app_assoc; reflexivity).
  rewrite Em.
  assert (Lm : 24 <= len m < 2 ^ 63).
  { split.
    - destruct U as (x & B & fin & Y & _). rewrite Y, !len_app, le_enc_len. change (len [31; 139; 8; 4; 0; 0; 0; 0; x; 3; 12; 0; 65; 97; 8; 0]) with 16. lia.
    - unfold m. rewrite !len_app. rewrite len_app in Hl. lia. }
  replace (Z.of_N (len ((base ++ H) ++ m ++ [])) - Z.of_N (len (base ++ H)))%Z with (Z.of_N (len m)).
  2: { rewrite app_nil_r, (len_app (base ++ H) m). lia. }
  destruct U as (x & B & fin & Y & HB & HL & Hf).
  assert (Xx : x = 2 \/ x = 4).
  { rewrite Y in HE. cbn [app] in HE. injection HE as <- _. exact HX. }
  pose proof (write_aa (base ++ H) x (le_enc 8 0) (B ++ fin ++ le_enc 4 (crc32 (d ++ i)) ++ le_enc 4 (len (d ++ i) mod 2 ^ 32))
    Xx (le_enc_length 8 0)) as W. cbv zeta in W. rewrite <- Y in W.
  rewrite app_nil_r, W. cbn [bind].
  set (t := B ++ fin ++ le_enc 4 (crc32 (d ++ i)) ++ le_enc 4 (len (d ++ i) mod 2 ^ 32)) in *.
  set (m' := ([31; 139; 8; 4; 0; 0; 0; 0; x; 3; 12; 0; 65; 97; 8; 0] ++ le_enc 8 (len m)) ++ t).
  assert (Lm' : len m' = len m) by (rewrite Y; unfold m'; rewrite !len_app, !le_enc_len; reflexivity).
  exists m'. eexists. split; [|split; [|reflexivity]].
  - split.
    + exists x, t. split; [exact Xx|]. split; [lia|]. rewrite Lm'. reflexivity.
    + exists x, B, fin. split; [rewrite Lm'; reflexivity|]. split; [lia|]. auto.
  - unfold in_skip. cbn. rewrite Eh, En, <- !app_assoc. repeat split.
Qed.

(** * Pieces *)

Lemma pieces_none rb ps : List.concat ps = [] -> Forall small ps -> rebuild_pieces rb ps = Ok rb.
Proof.
  revert rb. induction ps as [|p ps IH]; intros rb E F; [reflexivity|]. cbn [List.concat] in E. apply app_eq_nil in E.
  destruct E as (-> & E). inversion F; subst. rewrite pieces_cons by assumption. rewrite process_nil. cbn [bind]. apply IH; auto.
Qed.

Lemma nil_dec (p : bytes) : p = [] \/ p <> [].
Proof. destruct p; [left; reflexivity|right; discriminate]. Qed.

(* The last one with something in it *)
Lemma pieces_step (P : bytes -> rebuild -> Prop) (Q : rebuild -> Prop) :
  (forall rb p r, P (p ++ r) rb -> p <> [] -> r <> [] -> exists rb', rebuild_process rb p = Ok rb' /\ P r rb') ->
  (forall rb p, P p rb -> p <> [] -> exists rb', rebuild_process rb p = Ok rb' /\ Q rb') ->
  forall ps rb, P (List.concat ps) rb -> List.concat ps <> [] -> Forall small ps ->
  exists rb', rebuild_pieces rb ps = Ok rb' /\ Q rb'.
Proof.
  intros H1 H2. induction ps as [|p ps IH]; intros rb HP HN F; [contradiction HN; reflexivity|].
  inversion F as [|? ? F1 F2]; subst. rewrite pieces_cons by assumption. cbn [List.concat] in *.
  destruct (nil_dec p) as [->|Np]; [rewrite process_nil; cbn [bind app] in *; apply IH; auto|].
  destruct (nil_dec (List.concat ps)) as [E|Nc].
  - rewrite E, app_nil_r in HP. destruct (H2 rb p HP Np) as (rb' & X & Y). rewrite X. cbn [bind]. exists rb'.
    split; [apply pieces_none; auto|exact Y].
  - destruct (H1 rb p _ HP Np Nc) as (rb' & X & Y). rewrite X. cbn [bind]. apply IH; auto.
Qed.

(** * The header *)

Definition after_head (base : bytes) (hd : header) (k : N) (rb : rebuild) : Prop :=
  (hasnt hd "WARC-Record-Digest" /\ exists hd' H, stripped hd hd' /\ new_head hd' H /\ in_body base H [] [] k rb) \/
  ((exists v, has hd "WARC-Record-Digest" v) /\ exists h1 h2, stripped hd h1 /\ hgood h1 /\ hlen prefix h1 < 2 ^ 20 /\
     Header_Delete h1 (str "WARC-record-digest") = Ok h2 /\ in_fix base [] h2 k rb).

Lemma stripped_digest hd h1 : hgood hd -> hgood h1 -> stripped hd h1 -> hget h1 "WARC-Record-Digest" = hget hd "WARC-Record-Digest".
Proof.
  intros G G1 (_ & S). destruct (hget hd "WARC-Record-Digest") as [v|] eqn:E.
  - apply has_get; [apply G1|]. apply has_get in E; [|apply G]. destruct E as (f & A & B & D). exists f. split; [|auto].
    apply S. split; [exact A|]. unfold dropped, named_as. rewrite B. intros [X|X]; discriminate.
  - apply hasnt_get. apply hasnt_get in E. intros f X. apply E. apply S in X. tauto.
Qed.

Lemma head_pieces base hd k ps rb : wf_header hd -> is_bytes (warc_text prefix hd) -> len (warc_text prefix hd) + 1 < bufsiz ->
  has hd "Content-Length" (dec k) -> k < 2 ^ 44 ->
  in_head base [] rb -> List.concat ps = warc_text prefix hd -> Forall small ps ->
  exists rb', rebuild_pieces rb ps = Ok rb' /\ after_head base hd k rb'.
Proof.
  intros W TB TL HC K I E F. set (text := warc_text prefix hd) in *.
  destruct (text_good prefix hd W TB) as (G & GI).
  apply (pieces_step (fun r rb => exists a, a ++ r = text /\ in_head base a rb)); auto.
  - clear rb I ps E F. intros rb p r (a & Ea & I1 & I2 & I3 & I4) Np Nr.
    assert (T : take_header C L bufsiz rb p = Ok (mkRb L RHead base (a ++ p) (b_fix L rb) (b_rlen L rb) (b_start L rb) (b_zs L rb)
              (b_in L rb) (b_sha L rb) None (b_clen L rb))).
    { unfold take_header. rewrite I3, I2, I4. pose proof (f_equal len Ea) as La. rewrite !len_app in La.
      unfold guard. replace (len a + len p + 1 <? bufsiz) with true by lia. cbn [bind].
      rewrite (text_part prefix hd (a ++ p) r); auto; [apply CP|]. rewrite <- app_assoc. exact Ea. }
    destruct (process_some rb p Np) as (n & ->). rewrite loop_some by exact Np.
    match type of T with _ = Ok ?x => exists x end. split; [|exists (a ++ p); split; [rewrite <- app_assoc; exact Ea|split; [right; reflexivity|split; [reflexivity|split; reflexivity]]]].
    destruct I1 as [(S & Z)|S]; rewrite S; [|exact T]. rewrite I3, Z. cbn [guard len List.length N.of_nat N.eqb bind]. rewrite Z in T. exact T.
  - clear rb I ps E F. intros rb p (a & Ea & I1 & I2 & I3 & I4) Np.
    enough (T : exists rb', take_header C L bufsiz rb p = Ok rb' /\ after_head base hd k rb').
    { destruct T as (rb' & T & A). exists rb'. split; [|exact A].
      destruct (process_some rb p Np) as (n & ->). rewrite loop_some by exact Np.
      destruct I1 as [(S & Z)|S]; rewrite S; [|exact T]. rewrite I3, Z. cbn [guard len List.length N.of_nat N.eqb bind]. exact T. }
    unfold take_header. rewrite I3, I4, Ea. replace (len a + len p) with (len text) by (rewrite <- Ea, len_app; reflexivity).
    unfold guard. replace (len text + 1 <? bufsiz) with true by lia. cbn [bind].
    assert (CT : cstr text = text).
    { apply (cstr_part text []). rewrite app_nil_r. unfold text. rewrite <- ser_text. destruct GI as ((GI & _) & _). apply ser_nonul; auto; [apply CP|].
      destruct W as (_ & _ & W). eapply Forall_impl; [|exact W]. intros f (_ & A & B). auto. }
    rewrite CT. unfold text at 1. rewrite text_end by (auto; apply CP). fold text. rewrite N.eqb_refl. cbn [bind].
    replace (Header_Parse prefix text) with (Ok hd).
    2: { symmetry. unfold text. rewrite <- ser_text. apply parse_serialize; auto; [apply GI|apply G|].
         destruct W as (_ & _ & W). eapply Forall_impl; [|exact W]. intros f (A & (_ & B1) & (_ & B2)). repeat split; try apply A; auto. }
    cbn [bind].
    assert (NM : Header_Get_Number hd (str "Content-Length") = Ok (Z.of_N k)).
    { apply has_get in HC; [|apply G]. unfold hget in HC. rewrite (number_exact _ _ _ HC); [|apply dec_digits].
      rewrite dec_value_undec, undec_dec. replace (k <? 2 ^ 63) with true by lia. reflexivity. }
    rewrite NM. cbn [bind]. destruct (strip_good prefix hd G) as (h1 & h2 & E1 & E2 & G2 & S2 & L2). rewrite E1. cbn [bind]. rewrite E2. cbn [bind].
    assert (LT : hlen prefix hd < 65536) by (unfold hlen; rewrite ser_text; fold text; lia).
    rewrite get_digest, (stripped_digest hd h2 G G2 S2). destruct (hget hd "WARC-Record-Digest") as [v|] eqn:HV.
    + eexists. split; [reflexivity|]. right. apply has_get in HV; [|apply G]. split; [exists v; exact HV|].
      destruct (del_good prefix h2 "WARC-record-digest" G2 eq_refl) as (h3 & E3 & _). exists h2, h3.
      split; [exact S2|]. split; [exact G2|]. split; [lia|]. split; [exact E3|].
      unfold in_fix. cbn [b_state b_out b_h b_fix b_sha b_rlen b_clen]. split; [reflexivity|]. split; [exact I2|]. split; [exists h2; auto|].
      split; [reflexivity|repeat split].
    + apply hasnt_get in HV.
      set (rb1 := mkRb L RHead (b_out L rb) text (b_fix L rb) (b_rlen L rb) (b_start L rb) (b_zs L rb) (b_in L rb) (b_sha L rb) None (Z.of_N k)).
      destruct (put_ok rb1 h2 RBody (Z.of_N k) [] G2) as (H & NH & PE).
      { destruct S2 as (S2 & _). rewrite S2. exact GI. } { lia. }
      rewrite PE. eexists. split; [reflexivity|]. left. split; [exact HV|]. exists h2, H. split; [exact S2|]. split; [exact NH|].
      unfold in_body. cbn [b_state b_out b_hdr b_h b_rlen b_start b_zs rb1]. rewrite I2, app_nil_r. repeat split; try constructor. reflexivity.
  - exists []. split; [exact E|exact I].
  - rewrite E. unfold text, warc_text. discriminate.
Qed.

(** * The body *)

Lemma body_pieces base H data d o ps rb : is_bytes data -> len data < 2 ^ 44 -> in_body base H d o (len (List.concat ps)) rb ->
  d ++ List.concat ps = data -> Forall small ps -> Forall (fun p => len p <= 65536) ps ->
  exists rb', rebuild_pieces rb ps = Ok rb' /\ closing base H data rb'.
Proof.
  intros DB DL I E F FL. destruct (nil_dec (List.concat ps)) as [Z|NZ].
  - rewrite Z in *. rewrite app_nil_r in E. subst d. exists rb. split; [apply pieces_none; auto|].
    destruct I as (I1 & I2 & I3 & I4 & I5 & I6 & I7 & I8). change (Z.of_N (len [])) with 0%Z in I5.
    set (rb1 := mkRb L RDeflate (b_out L rb) (b_hdr L rb) (b_fix L rb) 0 (b_start L rb) (b_zs L rb) [] (b_sha L rb) (b_h L rb) (b_clen L rb)).
    destruct (end_ok rb1 base H data o []) as (B & rb' & N1 & N2 & N3); auto; try (rewrite app_nil_r; assumption); [cbn; lia|].
    rewrite app_nil_r in N1. exists 1%nat, B, rb'. split; [lia|]. split; [exact N1|]. split; [exact N2|].
    intros n p Np. change (1 + n)%nat with (S n). rewrite loop_some by exact Np. rewrite I1. unfold take_body. rewrite I5.
    cbn [Z.ltb Z.compare bind]. rewrite Z.min_l by lia. cbn [Z.to_nat firstn skipn Z.sub Z.opp Z.add].
    change (bind (do_deflate L rb1) (fun rb => process_loop n rb p) = process_loop n rb' p). rewrite N3. reflexivity.
  - assert (PS : forall ps rb d o, in_body base H d o (len (List.concat ps)) rb -> d ++ List.concat ps = data -> List.concat ps <> [] ->
       Forall small ps -> Forall (fun p => len p <= 65536) ps ->
       exists rb' B, rebuild_pieces rb ps = Ok rb' /\ new_body data B /\ in_skip (base ++ H ++ B ++ crnlcrnl) 4 rb').
    { clear ps rb d o I E F FL NZ. induction ps as [|p ps IH]; intros rb d o I E N F FL; [contradiction N; reflexivity|].
      inversion F as [|? ? F1 F2]; subst. inversion FL as [|? ? K1 K2]; subst. rewrite pieces_cons by assumption. cbn [List.concat] in *.
      destruct (nil_dec p) as [->|Np]; [rewrite process_nil; cbn [bind app] in *; eapply IH; eauto|].
      pose proof (len_pos p Np) as Lp. rewrite len_app in I. destruct I as (I1 & I2 & I3 & I4 & I5 & I6 & I7 & I8).
      destruct (process_some rb p Np) as (n & ->). rewrite loop_some by exact Np. rewrite I1. unfold take_body. rewrite I5.
      replace (Z.of_N (len p + len (List.concat ps)) <? 0)%Z with false by lia. cbn [bind]. rewrite Z.min_r by lia.
      rewrite firstn_z, skipn_z.
      replace (Z.of_N (len p + len (List.concat ps)) - Z.of_N (len p))%Z with (Z.of_N (len (List.concat ps))) by lia.
      set (rb1 := mkRb L RDeflate (b_out L rb) (b_hdr L rb) (b_fix L rb) (Z.of_N (len (List.concat ps))) (b_start L rb) (b_zs L rb) p
         (b_sha L rb) (b_h L rb) (b_clen L rb)).
      destruct (nil_dec (List.concat ps)) as [Z|Nc].
      - rewrite Z, app_nil_r in *. 
        destruct (end_ok rb1 base H d o p) as (B & rb' & N1 & N2 & N3); auto; [unfold rb1; cbn [b_rlen]; rewrite Z; reflexivity|].
        rewrite N3. cbn [bind]. rewrite loop_nil. cbn [bind]. exists rb', B. split; [apply pieces_none; auto|]. auto.
      - pose proof (len_pos _ Nc) as Lc. destruct (zr_feed L ZR _ _ _ p I7 Np K1) as (s' & out & D1 & D2).
        unfold do_deflate. cbn [b_rlen b_zs b_in rb1]. replace (0 <? Z.of_N (len (List.concat ps)))%Z with true by lia.
        unfold ROOM. rewrite D1. cbn [bind]. replace (Z.of_N (len (List.concat ps)) =? 0)%Z with false by lia. cbn [negb].
        cbn [bind]. rewrite loop_nil. cbn [bind]. eapply (IH _ (d ++ p) (o ++ out)); auto.
        + unfold in_body. cbn [b_state b_out b_hdr b_h b_rlen b_start b_zs rb1]. rewrite I2, <- !app_assoc.
          split; [reflexivity|]. split; [reflexivity|]. split; [exact I3|]. split; [exact I4|]. split; [reflexivity|]. split; [exact I6|].
          split; [|rewrite !len_app; lia]. rewrite <- (firstn_lz p). eapply fed_more; eauto.
        + rewrite <- app_assoc. reflexivity. }
    destruct (PS ps rb d o I E NZ F FL) as (rb' & B & R1 & R2 & R3). exists rb'. split; [exact R1|].
    exists 0%nat, B, rb'. split; [lia|]. split; [exact R2|]. split; [exact R3|]. intros n p _. reflexivity.
Qed.
(** * The body of a record of old *)

Lemma fix_last base hd h1 h2 a p data rb : is_bytes data -> len data <= bufsiz -> a ++ p = data ->
  stripped hd h1 -> hgood h1 -> hlen prefix h1 < 2 ^ 20 -> Header_Delete h1 (str "WARC-record-digest") = Ok h2 ->
  in_fix base a h2 (len data) rb ->
  exists hd' H rb', mended (c_idsize C) (z_sha L data) hd hd' /\ new_head hd' H /\
    (forall q, take_fix C L bufsiz rb (p ++ q) = Ok (rb', q)) /\
    exists B rb2, new_body data B /\ in_skip (base ++ H ++ B ++ crnlcrnl) 4 rb2 /\
    b_state L rb' = RDeflate /\ do_deflate L rb' = Ok rb2.
Proof.
  intros DB DL E S1 G1 L1 D1 (I1 & I2 & (h & I3 & I3') & I4 & I5 & I6 & I7).
  destruct (zo_sha L ZO data) as (SL & SH).
  destruct (mend_good prefix (c_idsize C) (z_sha L data) hd h1 CN SL) as (h2' & h3 & h4 & E2 & E2' & E3 & E4 & G4 & GI4 & M4 & L4); auto.
  { eapply Forall_impl; [|exact SH]. intros c (X & _). exact X. }
  assert (h2' = h2) by congruence. subst h2'.
  set (rb1 := mkRb L RFix base (b_hdr L rb) data (Z.of_N (len data)) (b_start L rb) (b_zs L rb) (b_in L rb) data (Some h2) (Z.of_N (len data))).
  destruct (put_ok rb1 h4 RDeflate 0 data G4 GI4) as (H & NH & PE); [lia|].
  set (rb' := mkRb L RDeflate (base ++ H) [] data 0 (len (base ++ H)) (z_init L) data data None (Z.of_N (len data))).
  exists h4, H, rb'. split; [exact M4|]. split; [exact NH|]. split.
  - intros q. unfold take_fix. rewrite I3, I3'. cbn [bind]. rewrite I6, I7.
    replace (Z.of_N (len data) - Z.of_N (len a))%Z with (Z.of_N (len p)) by (rewrite <- E, len_app; lia).
    rewrite Z.min_l by (rewrite len_app; lia). replace (Z.of_N (len p) <? 0)%Z with false by lia.
    replace (Z.of_N (len a) + Z.of_N (len p))%Z with (Z.of_N (len data)) by (rewrite <- E, len_app; lia).
    replace (Z.of_N bufsiz <? Z.of_N (len data))%Z with false by lia.
    replace (Z.to_nat (Z.of_N (len p))) with (List.length p) by (unfold len; lia). rewrite firstn_cat by reflexivity. rewrite skipn_cat.
    replace (Z.to_nat (Z.of_N (len a))) with (List.length a) by (unfold len; lia). rewrite I4, I5, E. cbn [b_clen].
    rewrite Z.ltb_irrefl. rewrite E3. cbn [bind]. rewrite E4. cbn [bind b_clen]. rewrite I2, firstn_z. fold rb1. rewrite PE. reflexivity.
  - destruct (end_ok rb' base H [] [] data) as (B & rb2 & N1 & N2 & N3); auto; cbn [app len List.length N.of_nat]; try lia.
    { unfold rb'. cbn [b_out]. rewrite app_nil_r. reflexivity. } { constructor. }
    exists B, rb2. auto.
Qed.

Lemma fix_pieces base hd h1 h2 data ps rb : is_bytes data -> len data <= bufsiz ->
  stripped hd h1 -> hgood h1 -> hlen prefix h1 < 2 ^ 20 -> Header_Delete h1 (str "WARC-record-digest") = Ok h2 ->
  in_fix base [] h2 (len data) rb -> List.concat ps = data -> Forall small ps ->
  exists rb' hd' H, mended (c_idsize C) (z_sha L data) hd hd' /\ new_head hd' H /\
    rebuild_pieces rb ps = Ok rb' /\ closing base H data rb'.
Proof.
  intros DB DL S1 G1 L1 D1 I E F. destruct (nil_dec data) as [Z|NZ].
  - destruct (fix_last base hd h1 h2 [] [] data rb) as (hd' & H & rb' & M & NH & T & B & rb2 & N1 & N2 & N3 & N4); auto.
    exists rb, hd', H. split; [exact M|]. split; [exact NH|]. split; [apply pieces_none; congruence|].
    exists 2%nat, B, rb2. split; [lia|]. split; [exact N1|]. split; [exact N2|]. intros n p Np.
    change (2 + n)%nat with (S (S n)). rewrite loop_some by exact Np. destruct I as (I1 & _). rewrite I1.
    specialize (T p). cbn [app] in T. rewrite T. cbn [bind]. rewrite loop_some by exact Np. rewrite N3, N4. reflexivity.
  - destruct (pieces_step (fun r rb => exists a, a ++ r = data /\ in_fix base a h2 (len data) rb)
      (fun rb' => exists hd' H, mended (c_idsize C) (z_sha L data) hd hd' /\ new_head hd' H /\ closing base H data rb')) with (ps := ps) (rb := rb)
      as (rb' & R1 & hd' & H & R2 & R3 & R4); auto.
    + clear rb I ps E F NZ. intros rb p r (a & Ea & I) Np Nr. pose proof I as (I1 & I2 & (h & I3 & I3') & I4 & I5 & I6 & I7).
      assert (La : len a + len p + len r = len data) by (rewrite <- Ea, !len_app; lia). pose proof (len_pos r Nr).
      destruct (process_some rb p Np) as (n & ->). rewrite loop_some by exact Np. rewrite I1.
      unfold take_fix. rewrite I3, I3'. cbn [bind]. rewrite I6, I7. rewrite Z.min_r by lia.
      replace (Z.of_N (len p) <? 0)%Z with false by lia.
      replace (Z.of_N bufsiz <? Z.of_N (len a) + Z.of_N (len p))%Z with false by lia. rewrite firstn_z, skipn_z.
      replace (Z.to_nat (Z.of_N (len a))) with (List.length a) by (unfold len; lia). rewrite I4, I5. cbn [b_clen].
      replace (Z.of_N (len a) + Z.of_N (len p) <? Z.of_N (len data))%Z with true by lia. cbn [bind].
      rewrite loop_nil.
      eexists. split; [reflexivity|]. exists (a ++ p). split; [rewrite <- app_assoc; exact Ea|].
      unfold in_fix. cbn [b_state b_out b_h b_fix b_sha b_rlen b_clen]. split; [reflexivity|]. split; [exact I2|].
      split; [exists h2; split; [reflexivity|]|].
      { destruct (del_good prefix h1 "WARC-record-digest" G1 eq_refl) as (h2' & X & _ & _ & _ & _ & Y). congruence. }
      split; [apply firstn_all|]. split; [reflexivity|]. split; [rewrite len_app; lia|reflexivity].
    + clear rb I ps E F NZ. intros rb p (a & Ea & I) Np.
      destruct (fix_last base hd h1 h2 a p data rb) as (hd' & H & rb' & M & NH & T & B & rb2 & N1 & N2 & N3 & N4); auto.
      destruct (process_some rb p Np) as (n & ->). rewrite loop_some by exact Np. destruct I as (I1 & _). rewrite I1.
      specialize (T []). rewrite app_nil_r in T. rewrite T. cbn [bind]. rewrite loop_nil. exists rb'. split; [reflexivity|].
      exists hd', H. split; [exact M|]. split; [exact NH|]. exists 1%nat, B, rb2. split; [lia|]. split; [exact N1|]. split; [exact N2|].
      intros k q Nq. change (1 + k)%nat with (S k). rewrite loop_some by exact Nq. rewrite N3, N4. reflexivity.
    + exists []. split; [exact E|exact I].
    + congruence.
    + exists rb', hd', H. auto.
Qed.

(** * What is behind *)

Lemma skip_step out r rb p n : in_skip out (Z.of_N (len (p ++ r))) rb -> p <> [] -> exists rb', process_loop (S n) rb p = Ok rb' /\
  (r <> [] -> in_skip out (Z.of_N (len r)) rb') /\ (r = [] -> in_head out [] rb' /\ b_state L rb' = RStart).
Proof.
  intros (I1 & I2 & I3 & I4 & I5) Np. rewrite loop_some by exact Np. rewrite I1. unfold take_skip. rewrite I5, len_app.
  rewrite Z.min_r by lia. rewrite skipn_z, loop_nil.
  replace (Z.of_N (len p + len r) - Z.of_N (len p))%Z with (Z.of_N (len r)) by lia. eexists. split; [reflexivity|].
  unfold in_skip, in_head. cbn [b_state b_out b_h b_hdr b_rlen]. split.
  - intros Nr. pose proof (len_pos r Nr). replace (Z.of_N (len r) =? 0)%Z with false by lia. auto.
  - intros ->. cbn. auto 10.
Qed.

Lemma skip_pieces out ps rb : in_skip out (Z.of_N (len (List.concat ps))) rb -> List.concat ps <> [] -> Forall small ps ->
  exists rb', rebuild_pieces rb ps = Ok rb' /\ in_head out [] rb'.
Proof.
  intros I N F. apply (pieces_step (fun r rb => in_skip out (Z.of_N (len r)) rb)); auto; clear I N F ps rb.
  - intros rb p r I Np Nr. destruct (process_some rb p Np) as (n & ->). destruct (skip_step out r rb p (S (S (S n))) I Np) as (rb' & X & Y & _).
    exists rb'. auto.
  - intros rb p I Np. destruct (process_some rb p Np) as (n & ->).
    destruct (skip_step out [] rb p (S (S (S n)))) as (rb' & X & _ & Y); auto; [rewrite app_nil_r; exact I|].
    exists rb'. split; [exact X|]. apply Y. reflexivity.
Qed.

Lemma close_pieces base H data ps rb : closing base H data rb -> List.concat ps = [13; 10; 13; 10] -> Forall small ps ->
  exists rb' B, rebuild_pieces rb ps = Ok rb' /\ new_body data B /\ in_head (base ++ H ++ B ++ crnlcrnl) [] rb'.
Proof.
  intros (k & B & rb1 & K & NB & SK & CL) E F.
  enough (X : exists rb', rebuild_pieces rb ps = Ok rb' /\ in_head (base ++ H ++ B ++ crnlcrnl) [] rb').
  { destruct X as (rb' & X & Y). exists rb', B. auto. }
  revert rb CL E F. induction ps as [|p ps IH]; intros rb CL E F; [discriminate|].
  inversion F as [|? ? F1 F2]; subst. rewrite pieces_cons by assumption. cbn [List.concat] in E.
  destruct (nil_dec p) as [->|Np]; [rewrite process_nil; cbn [bind app] in *; apply IH; auto|].
  unfold RebuildModel.rebuild_process. replace (4 + 4 * List.length p)%nat with (k + S (3 - k + 4 * List.length p))%nat by lia.
  rewrite CL by exact Np.
  destruct (skip_step (base ++ H ++ B ++ crnlcrnl) (List.concat ps) rb1 p (3 - k + 4 * List.length p)) as (rb' & X & Y & Z); auto.
  { rewrite E. exact SK. }
  rewrite X. cbn [bind]. destruct (nil_dec (List.concat ps)) as [Q|Q].
  - exists rb'. split; [apply pieces_none; auto|]. apply Z. exact Q.
  - apply skip_pieces; auto.
Qed.
End Main.

