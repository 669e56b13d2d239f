(* Specification of rebuilding: what the new silo has to be *)
From Coq Require Import String.
From Verif Require Import Base IndexModel HeaderModel HeaderSpec InflateSpec GzipModel GzipSpec ProgModel StoreModel StoreSpec.
Open Scope string_scope.
Open Scope list_scope.
Open Scope N_scope.

(* ------------------------------------------------------------------ *)
(* What is expected of zlib: the array of 128 kilobytes is large enough *)

(* States deflate(3) can be in after calls with input up to 64 kilobytes and room for
   128 *)
Inductive fed (L : zlib) : zstate L -> bytes -> bytes -> Prop :=
| fed_0 : fed L (z_init L) [] []
| fed_more s d o i s' c out :
    fed L s d o -> i <> [] -> len i <= 65536 -> z_deflate L s i 131072 ZNone = (s', c, out, ZOk) ->
    fed L s' (d ++ firstn (N.to_nat c) i) (o ++ out).

Definition headed (m : bytes) : Prop := exists xfl r,
  (xfl = 2 \/ xfl = 4) /\ m = [31; 139; 8; 4; 0; 0; 0; 0; xfl; 3; 12; 0; 65; 97; 8; 0] ++ r.

Record zlib_roomy (L : zlib) : Prop := {
  (* all input is taken *)
  zr_feed : forall s d o i, fed L s d o -> i <> [] -> len i <= 65536 ->
    exists s' out, z_deflate L s i 131072 ZNone = (s', len i, out, ZOk) /\ len out <= 131072;
  (* and what is left fits too *)
  zr_end : forall s d o i, fed L s d o -> len i <= 65536 -> is_bytes (d ++ i) ->
    exists s1 o1 s2 c2 o2, z_deflate L s i 131072 ZSync = (s1, len i, o1, ZOk) /\
      z_deflate L s1 [] (131072 - len o1) ZFinish = (s2, c2, o2, ZEnd) /\ len o1 + len o2 <= 131072 /\
      headed (o ++ o1 ++ o2) /\ unsized (o ++ o1 ++ o2) (d ++ i);
  zr_gzip : forall t, is_bytes t -> len t < 2 ^ 62 -> headed (z_gzip L 0 t) }.

(* The pieces in which inflate(3) delivers a member *)
Definition delivers (split : bytes -> list bytes) : Prop := forall f d rest, gunzip f = Some (d, rest) ->
  List.concat (split f) = d /\ Forall (fun p => len p <= 65536) (split f).

(* ------------------------------------------------------------------ *)
(* Silos                                                                *)

Definition contains (P : bytes -> wrec -> Prop) (b : bytes) (ws : list wrec) : Prop :=
  exists rs, b = List.concat rs /\ Forall2 P rs ws.

(* A record of whatever sort: header, body, CRNLCRNL; the header says how long the
   body is. *)
Definition held (prefix : bytes) (r : bytes) (w : wrec) : Prop := exists H B,
  r = H ++ B ++ crnlcrnl /\ gunzip H = Some (warc_text prefix (wr_hdr w), []) /\ wf_header (wr_hdr w) /\
  gunzip B = Some (wr_data w, []) /\ has (wr_hdr w) "Content-Length" (dec (len (wr_data w))).

(* A record as it should be: both members say how long they are, and the body can be
   stitched. *)
Definition rewritten (prefix : bytes) (r : bytes) (w : wrec) : Prop := exists H B,
  r = H ++ B ++ crnlcrnl /\ gunzip H = Some (warc_text prefix (wr_hdr w), []) /\ wf_header (wr_hdr w) /\
  aa_member H /\ len H <= len (warc_text prefix (wr_hdr w)) + len (warc_text prefix (wr_hdr w)) / 64 + 100 /\
  aa_member B /\ synced B (wr_data w).

Definition named_as (n : string) (f : hfield) : Prop := lower (hf_name f) = lower (str n).
Definition dropped (f : hfield) : Prop := named_as "Content-Length-GZIP" f \/ named_as "z" f.

(* The header without the two fields *)
Definition stripped (hd hd' : header) : Prop :=
  h_id hd' = h_id hd /\ forall f, In f (h_fields hd') <-> In f (h_fields hd) /\ ~ dropped f.

(* The header of a record of old: the digest has another name now, and the identifier
   follows from it. *)
Definition mended (n : N) (dig : bytes) (hd hd' : header) : Prop :=
  h_id hd' = firstn (N.to_nat n) dig /\ has hd' "WARC-Block-Digest" (str "sha256:" ++ dig) /\
  forall f, ~ named_as "WARC-Block-Digest" f ->
    (In f (h_fields hd') <-> In f (h_fields hd) /\ ~ dropped f /\ ~ named_as "WARC-Record-Digest" f).

Definition redone (n : N) (sha : bytes -> bytes) (w w' : wrec) : Prop :=
  wr_data w' = wr_data w /\
  (hasnt (wr_hdr w) "WARC-Record-Digest" -> stripped (wr_hdr w) (wr_hdr w')) /\
  (forall v, has (wr_hdr w) "WARC-Record-Digest" v -> mended n (sha (wr_data w)) (wr_hdr w) (wr_hdr w')).

(* What the program has room for: headers less than BUFSIZ, bodies of records of old
   up to BUFSIZ; and bodies less than 64 kilobytes, or else there is a byte to spare
   behind the array. *)
Definition fits (prefix : bytes) (bufsiz : N) (spare : bool) (w : wrec) : Prop :=
  len (warc_text prefix (wr_hdr w)) + 1 < bufsiz /\ len (wr_data w) < 2 ^ 44 /\
  (spare = true \/ len (wr_data w) < 65536) /\
  (hasnt (wr_hdr w) "WARC-Record-Digest" \/ len (wr_data w) <= bufsiz).

(* A file which is a silo of such records; or one which cannot be opened *)
Definition good_file (prefix : bytes) (bufsiz : N) (spare : bool) (f : option bytes) : Prop :=
  match f with
  | Some b => exists ws, contains (held prefix) b ws /\ Forall (fits prefix bufsiz spare) ws
  | None => True
  end.
(* The new file for it *)
Definition renewed (prefix : bytes) (bufsiz : N) (spare : bool) (n : N) (sha : bytes -> bytes) (f o : option bytes) : Prop :=
  match f, o with
  | Some b, Some b' => forall ws, contains (held prefix) b ws -> Forall (fits prefix bufsiz spare) ws ->
      exists ws', contains (rewritten prefix) b' ws' /\ Forall2 (redone n sha) ws ws'
  | None, None => True
  | _, _ => False
  end.

(* A record of an archive which may be rebuilt: as text the header leaves room for what
   compression may add *)
Definition stored (prefix : bytes) (bufsiz : N) (spare : bool) (w : wrec) : Prop :=
  hasnt (wr_hdr w) "WARC-Record-Digest" /\ len (warc_text prefix (wr_hdr w)) <= 3900 /\ fits prefix bufsiz spare w.

Definition same_but (a a' : N * wrec) : Prop :=
  wr_data (snd a') = wr_data (snd a) /\ stripped (wr_hdr (snd a)) (wr_hdr (snd a')).
