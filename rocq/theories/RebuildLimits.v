(* Rebuilding: where the limits are *)
From Coq Require Import String Sorting.Sorted.
From Coq Require Import ZifyBool ZifyNat ZifyN.
From Verif Require Import Base BaseLemmas ListLemmas IndexModel HeaderModel HeaderSpec HeaderProofs
  InflateSpec InflateProofs GzipModel GzipSpec GzipProofs ProgModel StoreModel StoreSpec StoreHdr StoreGet
  RebuildModel RebuildSpec RebuildProofs RebuildMain RebuildTop.
Open Scope string_scope.
Open Scope list_scope.
Open Scope N_scope.

(* Pieces of k bytes *)
Definition split_by (k : N) (f : bytes) : list bytes :=
  match gunzip f with Some (d, _) => chunks (N.to_nat k) d | None => [] end.

Lemma by_delivers k : 0 < k <= 65536 -> delivers (split_by k).
Proof.
  intros K f d rest G. unfold split_by. rewrite G. split.
  - apply concat_chunks. lia.
  - assert (Q : (0 < N.to_nat k)%nat) by lia. assert (Q2 : N.of_nat (N.to_nat k) <= 65536) by lia. generalize dependent (N.to_nat k). intros m Q Q2.
    remember (List.length d) as n eqn:En. assert (LE : (List.length d <= n)%nat) by lia. clear En G f rest. revert d LE.
    induction n as [|n IH]; intros d LE; (destruct d as [|c d]; [rewrite chunks_nil; constructor|]); [cbn [List.length] in LE; lia|].
    rewrite chunks_cons by (assumption || discriminate). constructor; [unfold len; rewrite firstn_length; lia|]. apply IH.
    rewrite skipn_length. cbn [List.length] in *. lia.
Qed.

Section Limits.
Variable C : conf.
Variable L : zlib.
Variable bufsiz : N.
Hypothesis CP : clean_prefix (c_prefix C).
Hypothesis CB : is_bytes (c_prefix C).
Hypothesis CN : 16 <= c_idsize C <= 64.
Hypothesis ZO : zlib_ok L.
Hypothesis ZR : zlib_roomy L.
Hypothesis BZ : bufsiz <= 65536.
Notation prefix := (c_prefix C).
Notation in_head := (in_head L).

Lemma new_head_state base : in_head base [] (mkRb L RStart base [] [] 0 0 (z_init L) [] [] None 0).
Proof. unfold RebuildMain.in_head. cbn. auto. Qed.

(* A header which is too long *)
Lemma head_over spare base hd ps : forall a rb, wf_header hd -> bufsiz <= len (warc_text prefix hd) + 1 -> in_head base a rb ->
  a ++ List.concat ps = warc_text prefix hd -> List.concat ps <> [] -> Forall (small spare) ps -> rebuild_pieces C L bufsiz spare rb ps = Abort.
Proof.
  induction ps as [|p ps IH]; intros a rb W T I E N F; [contradiction N; reflexivity|].
  inversion F as [|? ? F1 F2]; subst. rewrite pieces_cons by assumption. cbn [List.concat] in *.
  destruct (nil_dec p) as [->|Np]; [rewrite process_nil; cbn [bind app] in *; eapply IH; eauto|].
  destruct I as (I1 & I2 & I3 & I4). destruct (process_some C L bufsiz rb p Np) as (n & ->). rewrite loop_some by exact Np.
  pose proof (f_equal len E) as La. rewrite !len_app in La.
  assert (TH : (if len a + len p + 1 <? bufsiz then
      take_header C L bufsiz rb p = Ok (mkRb L RHead base (a ++ p) (b_fix L rb) (b_rlen L rb) (b_start L rb) (b_zs L rb)
              (b_in L rb) (b_sha L rb) None (b_clen L rb)) /\ List.concat ps <> []
      else take_header C L bufsiz rb p = Abort)).
  { destruct (len a + len p + 1 <? bufsiz) eqn:Q; unfold take_header; rewrite I3, Q; cbn [guard bind]; [|reflexivity].
    assert (Nc : List.concat ps <> []) by (intros Z; rewrite Z in La; change (len []) with 0 in La; lia). split; [|exact Nc].
    rewrite (text_part prefix hd (a ++ p) (List.concat ps)); auto; [rewrite I2, I4; reflexivity|apply CP|rewrite <- app_assoc; exact E]. }
  assert (ST : (match b_state L rb with
     | RStart => let* _ := guard (len (b_hdr L rb) =? 0) in take_header C L bufsiz rb p
     | _ => take_header C L bufsiz rb p end) = take_header C L bufsiz rb p).
  { destruct I1 as [(S & Z)|S]; rewrite S; [|reflexivity]. rewrite I3, Z. reflexivity. }
  assert (ST2 : forall A B D, (match b_state L rb with
     | RStart => let* _ := guard (len (b_hdr L rb) =? 0) in take_header C L bufsiz rb p
     | RHead => take_header C L bufsiz rb p | RFix => A | RBody => B | RDeflate => D | RSkip => D end) = take_header C L bufsiz rb p).
  { intros A B D. destruct I1 as [(S & Z)|S]; rewrite S in *; exact ST. }
  destruct (len a + len p + 1 <? bufsiz).
  - destruct TH as (TH & Nc). destruct I1 as [(S & Z)|S]; rewrite S in *; rewrite ?ST, TH; cbn [bind];
      (apply (IH (a ++ p)); auto; [|rewrite <- app_assoc; exact E]); unfold RebuildMain.in_head; cbn; auto.
  - destruct I1 as [(S & Z)|S]; rewrite S in *; rewrite ?ST, TH; reflexivity.
Qed.

Theorem header_limit spare split r w x : delivers split -> held prefix r w -> bufsiz <= len (warc_text prefix (wr_hdr w)) + 1 ->
  spare = true \/ len (warc_text prefix (wr_hdr w)) < 65536 -> main_rebuild C L bufsiz spare split [Some (r ++ x)] = Abort.
Proof.
  intros DV (H & B & -> & GH & W & GB & HC) T SP. unfold main_rebuild. cbn [rebuild_files]. unfold rebuild_silo. rewrite <- !app_assoc.
  destruct (member_step C L bufsiz CN BZ spare split DV (List.length (H ++ B ++ crnlcrnl ++ x))
    (mkRb L RStart [] [] [] 0 0 (z_init L) [] [] None 0) H (B ++ crnlcrnl ++ x) _ GH) as (_ & ps & P1 & _ & P3 & E); auto.
  match goal with |- bind (silo_members _ _ _ _ _ ?n ?rb ?f) _ = _ => change (silo_members C L bufsiz spare split n rb f) with (silo_members C L bufsiz spare split (S (List.length (H ++ B ++ crnlcrnl ++ x))) (mkRb L RStart [] [] [] 0 0 (z_init L) [] [] None 0) f) end.
  rewrite E. rewrite (head_over spare [] (wr_hdr w) ps []); auto; [apply new_head_state|]. rewrite P1. unfold warc_text. discriminate.
Qed.

(* A record of old which is too long *)
Lemma fix_over spare base h2 k ps : forall a rb, len a <= bufsiz -> bufsiz < k -> in_fix L base a h2 k rb ->
  Header_Delete h2 (str "WARC-record-digest") = Ok h2 ->
  len a + len (List.concat ps) = k -> Forall (small spare) ps -> rebuild_pieces C L bufsiz spare rb ps = UB.
Proof.
  induction ps as [|p ps IH]; intros a rb LA BK I D E F; [change (len (List.concat [])) with 0 in E; lia|].
  inversion F as [|? ? F1 F2]; subst. rewrite pieces_cons by assumption. cbn [List.concat] in *.
  destruct (nil_dec p) as [->|Np]; [rewrite process_nil; cbn [bind app] in *; eapply IH; eauto|].
  destruct I as (I1 & I2 & (h & I3 & I3') & I4 & I5 & I6 & I7). rewrite len_app in *.
  destruct (process_some C L bufsiz rb p Np) as (n & ->). rewrite loop_some by exact Np. rewrite I1.
  unfold take_fix. rewrite I3, I3'. cbn [bind]. rewrite I6, I7. rewrite Z.min_r by lia.
  replace (Z.of_N (len p) <? 0)%Z with false by lia.
  destruct (Z.of_N bufsiz <? Z.of_N (len a) + Z.of_N (len p))%Z eqn:Q; [reflexivity|].
  rewrite firstn_z, skipn_z. replace (Z.to_nat (Z.of_N (len a))) with (List.length a) by (unfold len; lia). rewrite I4, I5. cbn [b_clen].
  match goal with |- context [(?u <? ?v)%Z] => replace (u <? v)%Z with true by lia end.
  cbn [bind]. rewrite loop_nil. cbn [bind]. apply (IH (a ++ p)); auto; [rewrite len_app; lia| |rewrite len_app; lia].
  unfold in_fix. cbn [b_state b_out b_h b_fix b_sha b_rlen b_clen]. split; [reflexivity|]. split; [exact I2|].
  split; [exists h2; auto|]. split; [apply firstn_all|]. split; [reflexivity|]. split; [rewrite len_app; lia|reflexivity].
Qed.

Lemma first_head spare split r w x : delivers split -> held prefix r w -> len (warc_text prefix (wr_hdr w)) + 1 < bufsiz ->
  len (wr_data w) < 2 ^ 44 -> exists n rb1 B, after_head C L [] (wr_hdr w) (len (wr_data w)) rb1 /\ gunzip B = Some (wr_data w, []) /\
  (List.length (B ++ crnlcrnl ++ x) < n)%nat /\
  main_rebuild C L bufsiz spare split [Some (r ++ x)] =
  bind (silo_members C L bufsiz spare split n rb1 (B ++ crnlcrnl ++ x)) (fun rb => Ok [Some (b_out L rb)]).
Proof.
  intros DV (H & B & -> & GH & W & GB & HC) T DL. unfold main_rebuild. cbn [rebuild_files bind]. unfold rebuild_silo. rewrite <- !app_assoc.
  change (b_state L (rb_new L)) with RStart. cbn [rb_new b_state b_hdr b_fix b_rlen b_start b_zs b_in b_sha b_h b_clen].
  destruct (member_step C L bufsiz CN BZ spare split DV (List.length (H ++ B ++ crnlcrnl ++ x))
    (mkRb L RStart [] [] [] 0 0 (z_init L) [] [] None 0) H (B ++ crnlcrnl ++ x) _ GH) as (Hn & ps & P1 & _ & P3 & E); auto; [right; lia|].
  rewrite E.
  destruct (head_pieces C L bufsiz CP CB CN ZO ZR BZ spare [] (wr_hdr w) (len (wr_data w)) ps _ W (gunzip_bytes _ _ _ GH) T HC DL
    (new_head_state []) P1 P3) as (rb1 & R1 & A1). rewrite R1. cbn [bind].
  exists (List.length (H ++ B ++ crnlcrnl ++ x)), rb1, B. auto.
Qed.

Theorem old_limit spare split r w v x : delivers split -> held prefix r w -> len (warc_text prefix (wr_hdr w)) + 1 < bufsiz ->
  has (wr_hdr w) "WARC-Record-Digest" v -> bufsiz < len (wr_data w) < 2 ^ 44 -> spare = true \/ len (wr_data w) < 65536 ->
  main_rebuild C L bufsiz spare split [Some (r ++ x)] = UB.
Proof.
  intros DV HE T V (D1 & D2) SP. destruct (first_head spare split r w x DV HE T D2) as (n & rb1 & B & A & GB & Hn & ->).
  destruct n as [|n]; [lia|]. destruct (member_step C L bufsiz CN BZ spare split DV n rb1 B (crnlcrnl ++ x) _ GB Hn SP) as (_ & ps & P1 & _ & P3 & ->).
  destruct A as [(N & _)|(_ & h1 & h2 & S & G1 & L1 & Dl & IF)].
  - exfalso. destruct V as (f & X1 & X2 & _). apply (N f X1 X2).
  - rewrite (fix_over spare [] h2 (len (wr_data w)) ps []); auto; [unfold len; cbn; lia| |rewrite P1; reflexivity].
    destruct (del_good prefix h1 "WARC-record-digest" G1 eq_refl) as (h2' & X & _ & _ & _ & _ & Y). congruence.
Qed.

(* A body which fills the buffer *)
Lemma overrun_by k r w x : k = 65536 -> held prefix r w -> len (warc_text prefix (wr_hdr w)) + 1 < bufsiz -> k <= len (wr_data w) < 2 ^ 44 ->
  main_rebuild C L bufsiz false (split_by k) [Some (r ++ x)] = UB.
Proof.
  intros K HE T (D1 & D2). assert (K0 : 0 < k <= 65536) by lia.
  destruct (first_head false (split_by k) r w x (by_delivers k K0) HE T D2) as (n & rb1 & B & A & GB & Hn & ->).
  destruct n as [|n]; [lia|]. destruct (gunzip_split _ _ _ GB) as (m & E & GG). rewrite app_nil_r in E. subst m. specialize (GG (crnlcrnl ++ x)).
  assert (NB : B <> []) by (intros ->; discriminate GB).
  cbn [silo_members]. destruct (B ++ crnlcrnl ++ x) as [|c l] eqn:Q; [destruct B; [congruence|discriminate]|]. rewrite <- Q in *.
  unfold split_by at 1. rewrite GG. rewrite chunks_cons; [|lia|intros Z; rewrite Z in D1; change (len []) with 0 in D1; lia].
  cbn [rebuild_pieces]. replace (OBUF <=? len (firstn (N.to_nat k) (wr_data w))) with true; [reflexivity|].
  symmetry. unfold OBUF, len in *. rewrite firstn_length. lia.
Qed.

Theorem overrun r w x : held prefix r w -> len (warc_text prefix (wr_hdr w)) + 1 < bufsiz -> 65536 <= len (wr_data w) < 2 ^ 44 ->
  exists split, delivers split /\ main_rebuild C L bufsiz false split [Some (r ++ x)] = UB.
Proof.
  intros H1 H2 H3. exists (split_by 65536). split; [apply by_delivers; lia|]. apply (overrun_by _ r w x eq_refl); assumption.
Qed.

(* A damaged silo: what is behind the damage is lost, and nothing is said. *)
Theorem lost spare split b ws junk : delivers split -> contains (held prefix) b ws -> Forall (fits prefix bufsiz spare) ws ->
  gunzip junk = None -> split junk = [] ->
  exists b' ws', main_rebuild C L bufsiz spare split [Some (b ++ junk)] = Ok [Some b'] /\ contains (rewritten prefix) b' ws' /\
    Forall2 (redone (c_idsize C) (z_sha L)) ws ws'.
Proof.
  intros DV (rs & -> & R) F G SJ. unfold main_rebuild. cbn [rebuild_files bind]. unfold rebuild_silo.
  cbn [rb_new b_state b_hdr b_fix b_rlen b_start b_zs b_in b_sha b_h b_clen].
  destruct (records_ok C L bufsiz CP CB CN ZO ZR BZ spare split DV rs junk ws (S (List.length (List.concat rs ++ junk)))
    (mkRb L RStart [] [] [] 0 0 (z_init L) [] [] None 0) [] R F (new_head_state [])) as (n' & rb' & rs' & ws' & E & Hn & R2 & D2 & J); [lia|].
  rewrite E. assert (Q : silo_members C L bufsiz spare split n' rb' junk = Ok rb').
  { destruct n' as [|n']; [lia|]. destruct junk as [|c j] eqn:EJ; [reflexivity|]. cbn [silo_members]. rewrite <- EJ in *. rewrite SJ, G. reflexivity. }
  rewrite Q. cbn [bind]. destruct J as (_ & O & _). cbn [app] in O. exists (List.concat rs'), ws'. rewrite O. split; [reflexivity|]. split; [exists rs'; auto|auto].
Qed.
End Limits.
