(* Property theorems C50: silos written anew.  Statements only. *)
From Coq Require Import String.
From Verif Require Import Base HeaderModel HeaderSpec InflateSpec GzipModel GzipSpec ProgModel StoreModel StoreSpec
  RebuildModel RebuildSpec RebuildTop RebuildToy RebuildLimits RebuildRuns.
Open Scope string_scope.
Open Scope list_scope.
Open Scope N_scope.

(* C50 in full: rebuild writes for each silo a new one with the same records in the
   same order: bodies unchanged, stored so that they can be stitched; headers unchanged
   but for Content-Length-GZIP and z, which are dropped; and records of old get a
   digest and an identifier which fit their content; or it stops and says why.  This
   is false, see the four cases of C50_refuted below.

   Proved: all of it if all silos are sound and within what the program has room for;
   for headers with WARC/1.1 in their first line and with fields in the order in which
   the program writes them. *)
Theorem C50_rebuild_partial : forall C L bufsiz, clean_prefix (c_prefix C) -> is_bytes (c_prefix C) -> 16 <= c_idsize C <= 64 ->
  zlib_ok L -> zlib_roomy L -> bufsiz <= 65536 -> forall spare split, delivers split -> forall files,
  Forall (good_file (c_prefix C) bufsiz spare) files ->
  exists outs, main_rebuild C L bufsiz spare split files = Ok outs /\
    Forall2 (renewed (c_prefix C) bufsiz spare (c_idsize C) (z_sha L)) files outs.
Proof. exact rebuild_ok. Qed.
Print Assumptions C50_rebuild_partial.
Example C50_rebuild_case : good_file (c_prefix K) 1024 false (Some silo1) /\ zlib_ok toy2 /\ zlib_roomy toy2 /\ delivers by7 /\
  clean_prefix (c_prefix K) /\ is_bytes (c_prefix K).
Proof. exact (conj silo1_good (conj toy2_ok (conj toy2_roomy (conj by7_ok (conj K_prefix K_bytes))))). Qed.
Example C50_rebuild_run : match main_rebuild K toy2 1024 false by7 [Some silo1; None; Some silo1] with
  | Ok [Some a; None; Some b] => a = b /\
      texts a = map Some [warc_text (c_prefix K) h1'; body; [13; 10; 13; 10]; warc_text (c_prefix K) h2'; body; [13; 10; 13; 10]]
  | _ => False
  end.
Proof. exact silo1_run. Qed.

(* A silo of an archive: the new one is a silo of an archive too, in the sense of C20
   to C24, of the same records. *)
Theorem C50_archive_partial : forall C L bufsiz, clean_prefix (c_prefix C) -> is_bytes (c_prefix C) -> 16 <= c_idsize C <= 64 ->
  zlib_ok L -> zlib_roomy L -> bufsiz <= 65536 -> forall spare split, delivers split -> forall b l,
  layout C L 0 b l -> Forall (fun a => stored (c_prefix C) bufsiz spare (snd a)) l ->
  exists b' l', main_rebuild C L bufsiz spare split [Some b] = Ok [Some b'] /\ layout C L 0 b' l' /\ Forall2 same_but l l'.
Proof. exact archive_ok. Qed.
Print Assumptions C50_archive_partial.

Theorem C50_same_partial : forall C L bufsiz, clean_prefix (c_prefix C) -> is_bytes (c_prefix C) -> 16 <= c_idsize C <= 64 ->
  zlib_ok L -> zlib_roomy L -> bufsiz <= 65536 -> forall spare split, delivers split -> forall b l,
  layout C L 0 b l -> Forall (fun a => stored (c_prefix C) bufsiz spare (snd a)) l ->
  Forall (fun a => hasnt (wr_hdr (snd a)) "Content-Length-GZIP" /\ hasnt (wr_hdr (snd a)) "z") l ->
  exists b' l', main_rebuild C L bufsiz spare split [Some b] = Ok [Some b'] /\ layout C L 0 b' l' /\ map snd l' = map snd l.
Proof. exact archive_same. Qed.
Print Assumptions C50_same_partial.
Example C50_archive_case : (exists b, layout K toy2 0 b [(0, mkRec h3 body)]) /\ stored (c_prefix K) 1024 false (mkRec h3 body).
Proof. exact (conj h3_layout h3_stored). Qed.

(* The limits are sharp.  A header of BUFSIZ - 1 bytes or more: the program stops. *)
Theorem C50_header_refuted : forall C L bufsiz, clean_prefix (c_prefix C) -> 16 <= c_idsize C <= 64 -> bufsiz <= 65536 ->
  forall spare split r w x, delivers split -> held (c_prefix C) r w -> bufsiz <= len (warc_text (c_prefix C) (wr_hdr w)) + 1 ->
  spare = true \/ len (warc_text (c_prefix C) (wr_hdr w)) < 65536 -> main_rebuild C L bufsiz spare split [Some (r ++ x)] = Abort.
Proof. exact header_limit. Qed.
Print Assumptions C50_header_refuted.
Example C50_header_case : held (c_prefix K) (raw h4 body) (mkRec h4 body) /\ 1024 <= len (warc_text (c_prefix K) h4) + 1 /\
  len (warc_text (c_prefix K) h4) < 65536.
Proof. exact h4_long. Qed.

(* A record of old with a body of more than BUFSIZ bytes: it writes beyond an array. *)
Theorem C50_old_refuted : forall C L bufsiz, clean_prefix (c_prefix C) -> is_bytes (c_prefix C) -> 16 <= c_idsize C <= 64 ->
  zlib_ok L -> zlib_roomy L -> bufsiz <= 65536 -> forall spare split r w v x, delivers split -> held (c_prefix C) r w ->
  len (warc_text (c_prefix C) (wr_hdr w)) + 1 < bufsiz -> has (wr_hdr w) "WARC-Record-Digest" v -> bufsiz < len (wr_data w) < 2 ^ 44 ->
  spare = true \/ len (wr_data w) < 65536 -> main_rebuild C L bufsiz spare split [Some (r ++ x)] = UB.
Proof. exact old_limit. Qed.
Print Assumptions C50_old_refuted.
Example C50_old_case : held (c_prefix K) (raw h5 body5) (mkRec h5 body5) /\ has h5 "WARC-Record-Digest" (str "sha1:x") /\
  len (warc_text (c_prefix K) h5) + 1 < 1024 /\ len body5 = 2000.
Proof. exact h5_old. Qed.

(* A body of 64 kilobytes or more which inflate(3) delivers in pieces as large as they
   can be: it writes a byte beyond an array. *)
Theorem C50_overrun_refuted : forall C L bufsiz, clean_prefix (c_prefix C) -> is_bytes (c_prefix C) -> 16 <= c_idsize C <= 64 ->
  zlib_ok L -> zlib_roomy L -> bufsiz <= 65536 -> forall r w x, held (c_prefix C) r w ->
  len (warc_text (c_prefix C) (wr_hdr w)) + 1 < bufsiz -> 65536 <= len (wr_data w) < 2 ^ 44 ->
  exists split, delivers split /\ main_rebuild C L bufsiz false split [Some (r ++ x)] = UB.
Proof. exact overrun. Qed.
Print Assumptions C50_overrun_refuted.
Example C50_overrun_case : exists r, held (c_prefix K) r (mkRec h6 (body6 65536)) /\ len (warc_text (c_prefix K) h6) + 1 < 1024.
Proof. exact h6_large. Qed.

(* A damaged silo: what is behind the damage is not in the new one, and the program
   ends as if all were well. *)
Theorem C50_lost_refuted : forall C L bufsiz, clean_prefix (c_prefix C) -> is_bytes (c_prefix C) -> 16 <= c_idsize C <= 64 ->
  zlib_ok L -> zlib_roomy L -> bufsiz <= 65536 -> forall spare split b ws junk, delivers split -> contains (held (c_prefix C)) b ws ->
  Forall (fits (c_prefix C) bufsiz spare) ws -> gunzip junk = None -> split junk = [] ->
  exists b' ws', main_rebuild C L bufsiz spare split [Some (b ++ junk)] = Ok [Some b'] /\ contains (rewritten (c_prefix C)) b' ws' /\
    Forall2 (redone (c_idsize C) (z_sha L)) ws ws'.
Proof. exact lost. Qed.
Print Assumptions C50_lost_refuted.
Example C50_lost_case : gunzip junk = None /\ by7 junk = [].
Proof. exact junk_run. Qed.
(* And one which ends inside a record keeps the next one from being rebuilt. *)
Theorem C50_cut_refuted : match main_rebuild K toy2 1024 false by7 [Some cut_silo] with
  | Ok [Some a] => texts a = map Some [warc_text (c_prefix K) h1'; body; [13; 10; 13; 10]; warc_text (c_prefix K) h1']
  | _ => False
  end /\ main_rebuild K toy2 1024 false by7 [Some cut_silo; Some (raw h3 body)] = Abort.
Proof. exact cut_run. Qed.
Print Assumptions C50_cut_refuted.
