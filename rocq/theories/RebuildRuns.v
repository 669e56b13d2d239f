(* Rebuilding: examples *)
From Coq Require Import String Sorting.Sorted.
From Coq Require Import ZifyBool ZifyNat ZifyN.
From Verif Require Import Base BaseLemmas ListLemmas IndexModel IndexSpec HeaderModel HeaderSpec HeaderProofs
  InflateSpec InflateProofs GzipModel GzipSpec GzipProofs ProgModel StoreModel StoreSpec StoreHdr StoreGet StoreToy StoreToyOk
  RebuildModel RebuildSpec RebuildProofs RebuildMain RebuildTop RebuildToy RebuildLimits.
Open Scope string_scope.
Open Scope list_scope.
Open Scope N_scope.

Definition K : conf := toy_conf 12000.
Definition by7 : bytes -> list bytes := split_by 7.
Lemma by7_ok : delivers by7.
Proof. apply by_delivers. lia. Qed.

Definition fld (n v : string) : hfield := mkF (str n) (str v).
Definition body : bytes := str "hello".

(* A record with the fields which are to go *)
Definition h1 : header := mkH (str "0123456789abcdef0123456789abcdef")
  [fld "Content-Length" "5"; fld "Content-Length-GZIP" "77"; fld "WARC-Type" "resource"; fld "z" "1"].
(* A record of old *)
Definition h2 : header := mkH (str "0123456789abcdef0123456789abcdef")
  [fld "Content-Length" "5"; fld "Content-Length-GZIP" "77"; fld "WARC-Record-Digest" "sha1:x"; fld "WARC-Type" "resource"].
(* A record as they are stored *)
Definition h3 : header := mkH (firstn 32 (toy_sha body))
  [fld "Content-Length" "5"; mkF (str "WARC-Block-Digest") (str "sha256:" ++ toy_sha body); fld "WARC-Type" "resource"].

Definition raw (h : header) (d : bytes) : bytes := toy_gzip 0 (warc_text (c_prefix K) h) ++ toy_gzip 0 d ++ crnlcrnl.

Lemma K_prefix : clean_prefix (c_prefix K).
Proof.
  split; [split|split]; [vm_compute; intuition discriminate..|]. exists (str "http://example.com"). reflexivity.
Qed.
Lemma K_bytes : is_bytes (c_prefix K).
Proof. unfold is_bytes. repeat (constructor; [reflexivity|]). constructor. Qed.
Lemma K_ids : 16 <= c_idsize K <= 64.
Proof. cbn. lia. Qed.

(* Checking headers *)
Fixpoint sortedb (l : list hfield) : bool :=
  match l with
  | f :: r => forallb (fun g => lexb_lt (lower (hf_name f)) (lower (hf_name g))) r && sortedb r
  | [] => true
  end.
Definition memb (c : N) (s : bytes) : bool := existsb (N.eqb c) s.
Definition wfb (hd : header) : bool :=
  forallb (fun c => is_hex c) (h_id hd) && sortedb (h_fields hd) &&
  forallb (fun f => negb (memb 58 (hf_name f)) && negb (bytes_eqb (lower (hf_name f)) (lower (str "WARC-Record-ID"))) &&
    negb (memb 0 (hf_name f)) && negb (memb 13 (hf_name f)) && negb (memb 0 (hf_val f)) && negb (memb 13 (hf_val f))) (h_fields hd).
Lemma memb_no c s : memb c s = false -> ~ In c s.
Proof.
  intros H I. unfold memb in H. rewrite <- not_true_iff_false, existsb_exists in H. apply H. exists c. rewrite N.eqb_refl. auto.
Qed.
Lemma wfb_ok hd : wfb hd = true -> wf_header hd.
Proof.
  unfold wfb. rewrite !andb_true_iff. intros ((A & B) & D). split; [|split].
  - unfold hexstr. apply Forall_forall. rewrite forallb_forall in A. exact A.
  - clear - B. induction (h_fields hd) as [|f l IH]; [constructor|]. cbn [sortedb] in B. rewrite andb_true_iff in B. destruct B as (B1 & B2).
    constructor; [apply IH; exact B2|]. apply Forall_forall. intros g G. rewrite forallb_forall in B1. specialize (B1 g G).
    unfold name_lt, lexb_lt in *. destruct (lex _ _); (reflexivity || discriminate).
  - apply Forall_forall. intros f F. rewrite forallb_forall in D. specialize (D f F). rewrite !andb_true_iff, !negb_true_iff in D.
    destruct D as (((((D1 & D2) & D3) & D4) & D5) & D6). unfold ok_name, clean. repeat split; try (apply memb_no; assumption).
    intros Q. rewrite Q, bytes_eqb_refl in D2. discriminate.
Qed.

Lemma raw_held h d : wf_header h -> is_bytes (warc_text (c_prefix K) h) -> is_bytes d -> len (warc_text (c_prefix K) h) < 2 ^ 62 -> len d < 2 ^ 62 ->
  has h "Content-Length" (dec (len d)) -> held (c_prefix K) (raw h d) (mkRec h d).
Proof.
  intros W B1 B2 L1 L2 H. exists (toy_gzip 0 (warc_text (c_prefix K) h)), (toy_gzip 0 d).
  destruct (zo_gzip _ toy2_ok 0 _ B1 L1) as (G1 & _). destruct (zo_gzip _ toy2_ok 0 _ B2 L2) as (G2 & _). auto.
Qed.
Lemma bytesb s : forallb (fun c => c <? 256) s = true -> is_bytes s.
Proof. intros H. unfold is_bytes. apply Forall_forall. rewrite forallb_forall in H. intros c I. specialize (H c I). lia. Qed.

Lemma h1_wf : wf_header h1. Proof. apply wfb_ok. vm_compute. reflexivity. Qed.
Lemma h2_wf : wf_header h2. Proof. apply wfb_ok. vm_compute. reflexivity. Qed.
Lemma h3_wf : wf_header h3. Proof. apply wfb_ok. vm_compute. reflexivity. Qed.
Lemma h_bytes h : In h [h1; h2; h3] -> is_bytes (warc_text (c_prefix K) h) /\ len (warc_text (c_prefix K) h) < 400 /\ has h "Content-Length" (dec (len body)).
Proof.
  intros [<-|[<-|[<-|[]]]]; (split; [apply bytesb; vm_compute; reflexivity|split; [vm_compute; reflexivity|]]);
  eexists; (split; [left; reflexivity|]); split; reflexivity.
Qed.
Lemma body_bytes : is_bytes body. Proof. apply bytesb. reflexivity. Qed.

Lemma old_has : has h2 "WARC-Record-Digest" (str "sha1:x").
Proof. eexists. split; [right; right; left; reflexivity|]. split; reflexivity. Qed.
Lemma new_hasnt h : In h [h1; h3] -> hasnt h "WARC-Record-Digest".
Proof. intros [<-|[<-|[]]] f I; repeat (destruct I as [<-|I]; [discriminate|]); destruct I. Qed.

Lemma h_held h : In h [h1; h2; h3] -> held (c_prefix K) (raw h body) (mkRec h body).
Proof.
  intros I. destruct (h_bytes h I) as (A & B & D). apply raw_held; auto; [|apply body_bytes|lia|vm_compute; reflexivity].
  destruct I as [<-|[<-|[<-|[]]]]; [apply h1_wf|apply h2_wf|apply h3_wf].
Qed.
Lemma h_fits h : In h [h1; h2; h3] -> fits (c_prefix K) 1024 false (mkRec h body).
Proof.
  intros I. destruct (h_bytes h I) as (A & B & D). unfold fits. cbn [wr_hdr wr_data]. change (len body) with 5. split; [lia|]. split; [lia|]. split; [right; lia|]. right. lia.
Qed.

Definition silo1 : bytes := raw h1 body ++ raw h2 body.
Lemma silo1_good : good_file (c_prefix K) 1024 false (Some silo1).
Proof.
  exists [mkRec h1 body; mkRec h2 body]. split.
  - exists [raw h1 body; raw h2 body]. split; [unfold silo1; cbn [List.concat]; rewrite app_nil_r; reflexivity|].
    constructor; [apply h_held; cbn; auto|]. constructor; [apply h_held; cbn; auto|]. constructor.
  - constructor; [apply h_fits; cbn; auto|]. constructor; [apply h_fits; cbn; auto|]. constructor.
Qed.

(* The new headers *)
Definition h1' : header := mkH (h_id h1) [fld "Content-Length" "5"; fld "WARC-Type" "resource"].
Definition h2' : header := mkH (firstn 32 (toy_sha body))
  [fld "Content-Length" "5"; mkF (str "WARC-Block-digest") (str "sha256:" ++ toy_sha body); fld "WARC-Type" "resource"].
Definition texts (b : bytes) : list (option bytes) :=
  (fix go (n : nat) (b : bytes) := match n, b with
     | S n, _ :: _ => match gunzip b with Some (d, r) => Some d :: go n r | None => [None] end
     | _, _ => []
     end) 12%nat b.
Lemma silo1_run : match main_rebuild K toy2 1024 false by7 [Some silo1; None; Some silo1] with
  | Ok [Some a; None; Some b] => a = b /\
      texts a = map Some [warc_text (c_prefix K) h1'; body; [13; 10; 13; 10]; warc_text (c_prefix K) h2'; body; [13; 10; 13; 10]]
  | _ => False
  end.
Proof. vm_compute. auto. Qed.

(** * An archive *)
Lemma h3_layout : exists b, layout K toy2 0 b [(0, mkRec h3 body)].
Proof.
  destruct (rebuild_ok K toy2 1024 K_prefix K_bytes K_ids toy2_ok toy2_roomy ltac:(lia) false by7 by7_ok [Some (raw h3 body)]) as (outs & _ & R).
  { constructor; [|constructor]. exists [mkRec h3 body]. split; [|constructor; [apply h_fits; cbn; auto|constructor]].
    exists [raw h3 body]. split; [cbn [List.concat]; rewrite app_nil_r; reflexivity|]. constructor; [apply h_held; cbn; auto|constructor]. }
  inversion R as [|? o ? os R1 R2]; subst. destruct o as [b'|]; [|destruct R1].
  destruct (R1 [mkRec h3 body]) as (ws' & (rs' & -> & W1) & W2).
  { exists [raw h3 body]. split; [cbn [List.concat]; rewrite app_nil_r; reflexivity|]. constructor; [apply h_held; cbn; auto|constructor]. }
  { constructor; [apply h_fits; cbn; auto|constructor]. }
  assert (N3 : hasnt h3 "WARC-Record-Digest") by (apply new_hasnt; cbn; auto).
  destruct (contains_layout K toy2 1024 K_ids ltac:(lia) false _ _ _ W1 W2) with (o := 0) as (l' & A & B & D).
  { constructor; [|constructor]. split; [exact N3|]. split; [|apply h_fits; cbn; auto]. cbn [wr_hdr].
    destruct (h_bytes h3) as (_ & X & _); [cbn; auto|lia]. }
  { constructor; [|constructor]. cbn [wr_hdr wr_data]. split; [apply h3_wf|]. split.
    - split; [apply h_bytes; cbn; auto|]. eexists. split; [right; left; reflexivity|]. split; reflexivity.
    - assert (T : has h3 "WARC-Type" (str "resource")) by (eexists; split; [right; right; left; reflexivity|split; reflexivity]).
      assert (S : hasnt h3 "WARC-Segment-Number") by (intros f I; repeat (destruct I as [<-|I]; [discriminate|]); destruct I).
      assert (P : hasnt h3 "WARC-Payload-Digest") by (intros f I; repeat (destruct I as [<-|I]; [discriminate|]); destruct I).
      split; [|split; [left; auto|vm_compute; reflexivity]]. intros _. exists (toy_sha body). auto. }
  exists (List.concat rs'). inversion D as [|? w' ? ws1 (D1 & D2) D3 Y1 Y2]. inversion D3 as [Y3|]. subst ws1. rewrite <- Y2 in B.
  destruct l' as [|[o w''] [|? ?]]; try discriminate B. cbn [map snd] in B. injection B as ->. inversion A as [|? r ? s ? R0 L0 E0 E1 H0]. rewrite E1. clear E1. subst o o0.
  enough (E : w' = mkRec h3 body) by (rewrite <- E; exact A). destruct w' as [hd d]. cbn [wr_hdr wr_data] in *. f_equal; [|exact D1].
  destruct R0 as (_ & _ & _ & _ & _ & _ & W & _). apply (strip_same K K_ids); auto; [apply h3_wf|apply W|..];
    intros f I; repeat (destruct I as [<-|I]; [discriminate|]); destruct I.
Qed.
Lemma h3_stored : stored (c_prefix K) 1024 false (mkRec h3 body).
Proof.
  split; [apply new_hasnt; cbn; auto|]. split; [|apply h_fits; cbn; auto]. cbn [wr_hdr]. destruct (h_bytes h3) as (_ & X & _); [cbn; auto|lia].
Qed.

(** * Beyond the limits *)
(* a header of more than BUFSIZ bytes *)
Definition h4 : header := mkH (h_id h1) [fld "Content-Length" "5"; mkF (str "x") (repeat 97 1000)].
Lemma h4_long : held (c_prefix K) (raw h4 body) (mkRec h4 body) /\ 1024 <= len (warc_text (c_prefix K) h4) + 1 /\ len (warc_text (c_prefix K) h4) < 65536.
Proof.
  split; [|split; [vm_compute; discriminate|vm_compute; reflexivity]].
  apply raw_held; [apply wfb_ok; vm_compute; reflexivity|apply bytesb; vm_compute; reflexivity|apply body_bytes|vm_compute; reflexivity..|].
  eexists. split; [left; reflexivity|]. split; reflexivity.
Qed.
(* a record of old of 2000 bytes *)
Definition h5 : header := mkH (h_id h1) [fld "Content-Length" "2000"; fld "WARC-Record-Digest" "sha1:x"].
Definition body5 : bytes := repeat 97 2000.
Lemma h5_old : held (c_prefix K) (raw h5 body5) (mkRec h5 body5) /\ has h5 "WARC-Record-Digest" (str "sha1:x") /\
  len (warc_text (c_prefix K) h5) + 1 < 1024 /\ len body5 = 2000.
Proof.
  split; [|split; [|split; vm_compute; reflexivity]].
  - apply raw_held; [apply wfb_ok; vm_compute; reflexivity|apply bytesb; vm_compute; reflexivity|apply bytesb; vm_compute; reflexivity|vm_compute; reflexivity..|].
    eexists. split; [left; reflexivity|]. split; vm_compute; reflexivity.
  - eexists. split; [right; left; reflexivity|]. split; reflexivity.
Qed.
(* a body of 64 kilobytes *)
Definition h6 : header := mkH (h_id h1) [fld "Content-Length" "65536"].
Definition body6 (k : N) : bytes := repeat 97 (N.to_nat k).
Lemma body6_len k : len (body6 k) = k.
Proof. unfold body6, len. rewrite repeat_length. lia. Qed.
Lemma h6_large : exists r, held (c_prefix K) r (mkRec h6 (body6 65536)) /\ len (warc_text (c_prefix K) h6) + 1 < 1024.
Proof.
  assert (X : forall k, k = 65536 -> held (c_prefix K) (raw h6 (body6 k)) (mkRec h6 (body6 k))).
  { intros k Ek. apply raw_held; [apply wfb_ok; vm_compute; reflexivity|apply bytesb; vm_compute; reflexivity| |vm_compute; reflexivity|rewrite body6_len; lia|].
    - unfold body6, is_bytes. apply Forall_forall. intros c I. apply repeat_spec in I. lia.
    - rewrite body6_len, Ek. eexists. split; [left; reflexivity|]. split; vm_compute; reflexivity. }
  exists (raw h6 (body6 65536)). split; [exact (X 65536 eq_refl)|vm_compute; reflexivity].
Qed.

(* A silo which ends inside a record: nothing is said; but the next silo cannot be
   rebuilt *)
Definition cut_silo : bytes := raw h1 body ++ toy_gzip 0 (warc_text (c_prefix K) h1).
Lemma cut_run : match main_rebuild K toy2 1024 false by7 [Some cut_silo] with
  | Ok [Some a] => texts a = map Some [warc_text (c_prefix K) h1'; body; [13; 10; 13; 10]; warc_text (c_prefix K) h1']
  | _ => False
  end /\ main_rebuild K toy2 1024 false by7 [Some cut_silo; Some (raw h3 body)] = Abort.
Proof. split; vm_compute; reflexivity. Qed.

Definition junk : bytes := str "not gzip".
Lemma junk_run : gunzip junk = None /\ by7 junk = [].
Proof. split; vm_compute; reflexivity. Qed.

