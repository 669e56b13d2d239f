(* Specification of archives: what a silo looks like, what its index entries
   say, when an object is stored; what is expected of zlib and libmd, of the
   configuration and of the store commands. *)
From Coq Require Import String Sorting.Sorted Permutation.
From Verif Require Import Base IndexModel IndexSpec HeaderModel HeaderSpec InflateSpec GzipModel GzipSpec
  ProgModel StoreModel.
Open Scope string_scope.
Open Scope list_scope.
Open Scope N_scope.

(* ------------------------------------------------------------------ *)
(* Records                                                              *)

(* The text of a WARC header. *)
Definition warc_text (prefix : bytes) (hd : header) : bytes :=
  str "WARC/1.1" ++ [13; 10] ++
  str "WARC-Record-ID: <" ++ prefix ++ h_id hd ++ str ">" ++ [13; 10] ++
  flat_map (fun f => hf_name f ++ str ": " ++ hf_val f ++ [13; 10]) (h_fields hd) ++ [13; 10].

(* A field with that name (letter case ignored) and value. *)
Definition has (hd : header) (name : string) (v : bytes) : Prop :=
  exists f, In f (h_fields hd) /\ lower (hf_name f) = lower (str name) /\ hf_val f = v.
Definition hasnt (hd : header) (name : string) : Prop :=
  forall f, In f (h_fields hd) -> lower (hf_name f) <> lower (str name).

(* No name twice, nothing which would not survive being written as text; the
   identifier is made of hex digits. *)
Definition wf_header (hd : header) : Prop :=
  hexstr (h_id hd) /\ StronglySorted name_lt (h_fields hd) /\
  Forall (fun f => ok_name (hf_name f) /\ clean (hf_name f) /\ clean (hf_val f)) (h_fields hd).

Record wrec := mkRec { wr_hdr : header; wr_data : bytes }.

(* The length of the member is in its 'Aa' field. *)
Definition aa_member (m : bytes) : Prop := exists xfl r,
  (xfl = 2 \/ xfl = 4) /\ len m < 2 ^ 63 /\
  m = ([31; 139; 8; 4; 0; 0; 0; 0; xfl; 3; 12; 0; 65; 97; 8; 0] ++ le_enc 8 (len m)) ++ r.

(* The header says what the body is. *)
Definition describes (sha : bytes -> bytes) (hd : header) (d : bytes) : Prop :=
  has hd "Content-Length" (dec (len d)) /\ has hd "WARC-Block-Digest" (str "sha256:" ++ sha d).

(* The record is an object or the first segment of one, or a silo description, or
   a later segment; the last two are named after their content. *)
Definition kind_ok (n : N) (sha : bytes -> bytes) (w : wrec) : Prop :=
  let hd := wr_hdr w in
  ((has hd "WARC-Type" (str "resource") \/ has hd "WARC-Type" (str "metadata") /\ exists ref, has hd "WARC-Refers-To" ref) /\
   (hasnt hd "WARC-Segment-Number" \/ has hd "WARC-Segment-Number" (str "1"))) \/
  (has hd "WARC-Type" (str "warcinfo") /\ hasnt hd "WARC-Segment-Number" /\ h_id hd = firstn (N.to_nat n) (sha (wr_data w))) \/
  (has hd "WARC-Type" (str "continuation") /\ (exists k, 1 < k /\ has hd "WARC-Segment-Number" (dec k)) /\
   h_id hd = firstn (N.to_nat n) (sha (wr_data w))).

(* A resource is named after its content: a record by itself after its body, the
   first segment of several after what it says the digest of the whole is.  All
   identifiers have n digits. *)
Definition named (n : N) (sha : bytes -> bytes) (w : wrec) : Prop :=
  (has (wr_hdr w) "WARC-Type" (str "resource") -> exists x, h_id (wr_hdr w) = firstn (N.to_nat n) x /\
    ((hasnt (wr_hdr w) "WARC-Segment-Number" /\ hasnt (wr_hdr w) "WARC-Payload-Digest" /\ x = sha (wr_data w)) \/
     (has (wr_hdr w) "WARC-Segment-Number" (str "1") /\ has (wr_hdr w) "WARC-Payload-Digest" (str "sha256:" ++ x)))) /\
  kind_ok n sha w /\ len (h_id (wr_hdr w)) = n.

Section Records.
Variable C : conf.
Variable L : zlib.
Notation prefix := (c_prefix C).

(* One record: header member, body member, and the gzip'ed CRNLCRNL.  The header
   and the first 24 bytes of the body fit into a page.  The body of anything but
   a warcinfo record can be stitched. *)
Definition record (r : bytes) (w : wrec) : Prop := exists H B,
  r = H ++ B ++ crnlcrnl /\
  describes (z_sha L) (wr_hdr w) (wr_data w) /\ named (c_idsize C) (z_sha L) w /\
  gunzip H = Some (warc_text prefix (wr_hdr w), []) /\ wf_header (wr_hdr w) /\
  len H + 24 <= 4096 /\ len (warc_text prefix (wr_hdr w)) <= 4096 /\
  aa_member B /\ gunzip B = Some (wr_data w, []) /\
  (has (wr_hdr w) "WARC-Type" (str "warcinfo") \/ synced B (wr_data w)).

(* Records one after the other, with their offsets. *)
Inductive layout : N -> bytes -> list (N * wrec) -> Prop :=
| layout_nil o : layout o [] []
| layout_cons o r w s l : record r w -> layout (o + len r) s l ->
    layout o (r ++ s) ((o, w) :: l).
End Records.

(* ------------------------------------------------------------------ *)
(* Index entries                                                        *)

Definition type_flag (t : bytes) : N :=
  if bytes_eqb t (str "warcinfo") then 2 else
  if bytes_eqb t (str "resource") then 4 else
  if bytes_eqb t (str "metadata") then 8 else 0.

(* The flags an index entry for a record with that header must have. *)
Definition flags_for (hd : header) (fl : N) : Prop := exists t,
  has hd "WARC-Type" t /\
  ((hasnt hd "WARC-Segment-Number" /\ fl = type_flag t) \/
   (exists k (last : bool), has hd "WARC-Segment-Number" k /\
      (if last then exists v, has hd "WARC-Segment-Total-Length" v
       else hasnt hd "WARC-Segment-Total-Length") /\
      fl = type_flag t + 16 + (if bytes_eqb k (str "1") then 32 else 0) + (if last then 64 else 0))).

(* The entry is the one for record w at offset o of silo n. *)
Definition entry_for (n o : N) (w : wrec) (e : ixent) : Prop :=
  e_silo e = n /\ e_off e = o /\ e_key e = pad 24 (h_id (wr_hdr w)) /\
  flags_for (wr_hdr w) (e_flags e) /\
  (hasnt (wr_hdr w) "WARC-Segment-Number" \/ (exists v, has (wr_hdr w) "WARC-Segment-Total-Length" v) ->
   e_cont e = str "00000000").

(* There is such a record in b. *)
Definition good_in (C : conf) (L : zlib) (n : N) (b : bytes) (e : ixent) : Prop :=
  exists a r z w, b = a ++ r ++ z /\ record C L r w /\ entry_for n (len a) w e.

Definition entries (s : fs) (n : N) : list ixent := filter (fun e => e_silo e =? n) (f_idx s).

Section Archive.
Variable C : conf.
Variable L : zlib.
Notation prefix := (c_prefix C).

(* A silo file and the index entries for it: the file is a sequence of records,
   the first describes the silo, the others do not; and there is exactly one
   entry for each. *)
Definition silo_ok (n : N) (b : bytes) (es : list ixent) : Prop :=
  exists w l es', layout C L 0 b ((0, w) :: l) /\
    has (wr_hdr w) "WARC-Type" (str "warcinfo") /\ has (wr_hdr w) "WARC-Filename" (c_base C n) /\
    Forall (fun x => ~ has (wr_hdr (snd x)) "WARC-Type" (str "warcinfo")) l /\
    Permutation es es' /\ Forall2 (fun x e => entry_for n (fst x) (snd x) e) ((0, w) :: l) es'.

(* A number nobody is working on. *)
Definition settled (so : option (bytes * bool)) (n : N) (es : list ixent) : Prop :=
  match so with
  | None => es = []
  | Some (b, _) => silo_ok n b es
  end.

(* A number with a hold file h: somebody is writing, or has been interrupted.
   The silo, if any, is in order except for something at its end; and the
   entries which are not for its records are for records in the hold. *)
Definition unsettled (so : option (bytes * bool)) (h : bytes) (n : N) (es : list ixent) : Prop :=
  exists es1 es2, Permutation es (es1 ++ es2) /\
    match so with
    | None => es1 = []
    | Some (b, _) => exists b0 tail, b = b0 ++ tail /\ silo_ok n b0 es1
    end /\
    Forall (good_in C L n h) es2.

(* The numbers kept in the silo cache file, or in memory: all silos below the
   first exist, and the free space of those below the second is less than the
   first. *)
Definition cache_ok (s : fs) (c : N * N) : Prop :=
  fst c < 2 ^ 32 /\ snd c <= fst c /\
  (forall n, n < fst c -> f_silo s n <> None) /\
  (forall n, n < snd c -> exists b w, f_silo s n = Some (b, w) /\ c_max C < len b + fst c).

Definition archive_ok (s : fs) : Prop :=
  (forall n, match f_hold s n with
             | None => settled (f_silo s n) n (entries s n)
             | Some h => unsettled (f_silo s n) h n (entries s n)
             end) /\
  (forall n b w, f_silo s n = Some (b, w) -> len b <= c_max C /\ n < 2 ^ 32) /\
  (forall c, f_cache s = Some c -> cache_ok s c).

(* Record w is in silo n at offset o, and e is an index entry for it. *)
Definition in_archive (s : fs) (n o : N) (w : wrec) (e : ixent) : Prop :=
  In e (f_idx s) /\ entry_for n o w e /\
  exists b wr a r z, f_silo s n = Some (b, wr) /\ b = a ++ r ++ z /\ len a = o /\ record C L r w.

(* One segment of an object: where it is. *)
Record part := mkPart { p_silo : N; p_off : N; p_rec : wrec; p_ent : ixent }.
Definition p_id (p : part) : bytes := h_id (wr_hdr (p_rec p)).

(* Segment number k of an object with that identifier and content. *)
Definition part_ok (s : fs) (id data : bytes) (k : N) (p : part) : Prop :=
  in_archive s (p_silo p) (p_off p) (p_rec p) (p_ent p) /\
  has (wr_hdr (p_rec p)) "WARC-Segment-Number" (dec k) /\
  (if k =? 1
   then p_id p = id /\ has (wr_hdr (p_rec p)) "WARC-Payload-Digest" (str "sha256:" ++ z_sha L data)
   else has (wr_hdr (p_rec p)) "WARC-Type" (str "continuation") /\
        has (wr_hdr (p_rec p)) "WARC-Segment-Origin-ID" (str "<" ++ prefix ++ id ++ str ">")).

(* Segments from number k on, linked by the index. *)
Fixpoint chain (s : fs) (id data : bytes) (k : N) (ps : list part) : Prop :=
  match ps with
  | [] => False
  | p :: r =>
      part_ok s id data k p /\
      match r with
      | [] => has (wr_hdr (p_rec p)) "WARC-Segment-Total-Length" (dec (len data))
      | q :: _ => hasnt (wr_hdr (p_rec p)) "WARC-Segment-Total-Length" /\
                  e_cont (p_ent p) = pad 8 (p_id q) /\ chain s id data (k + 1) r
      end
  end.

(* The object is in the archive: as one record, or as two or more segments, none of
   them empty. *)
Definition stored_as (s : fs) (typ id data : bytes) (ps : list part) : Prop :=
  (List.concat (map (fun p => wr_data (p_rec p)) ps) = data /\
   Forall (fun p => wr_data (p_rec p) <> []) ps) /\
  match ps with
  | [] => False
  | p :: r =>
      has (wr_hdr (p_rec p)) "WARC-Type" typ /\
      match r with
      | [] => in_archive s (p_silo p) (p_off p) (p_rec p) (p_ent p) /\
              p_id p = id /\
              hasnt (wr_hdr (p_rec p)) "WARC-Segment-Number" /\
              hasnt (wr_hdr (p_rec p)) "WARC-Payload-Digest" /\
              hasnt (wr_hdr (p_rec p)) "WARC-Segment-Total-Length"
      | _ => chain s id data 1 ps
      end
  end.

(* Identifiers are abbreviated in the index.  What it lists under the digits of
   that identifier can be read, and nothing else there has the same identifier. *)
Definition clear_first (s : fs) (id : bytes) (p : part) : Prop :=
  forall e, In e (f_idx s) -> asked (Some id) e ->
    exists n o w, in_archive s n o w e /\ (lower (h_id (wr_hdr w)) = lower id -> e = p_ent p).

(* What is listed under the digits by which p names the next segment are
   continuations, and q is the only one of the object with that identifier. *)
Definition clear_next (s : fs) (id : bytes) (p q : part) : Prop :=
  forall e, In e (f_idx s) -> asked (Some (e_cont (p_ent p))) e ->
    exists n o w oid, in_archive s n o w e /\ has (wr_hdr w) "WARC-Type" (str "continuation") /\
      has (wr_hdr w) "WARC-Segment-Origin-ID" (str "<" ++ prefix ++ oid ++ str ">") /\
      len oid = c_idsize C /\ (lower oid = lower id -> e = p_ent q).

Fixpoint clear_rest (s : fs) (id : bytes) (p : part) (ps : list part) : Prop :=
  match ps with
  | [] => True
  | q :: r => clear_next s id p q /\ clear_rest s id q r
  end.

Definition clear (s : fs) (id : bytes) (ps : list part) : Prop :=
  match ps with [] => True | p :: r => clear_first s id p /\ clear_rest s id p r end.

(* Simpler, for the whole archive: nothing is listed under the digits of an
   identifier, or under those by which a segment names the next, but one entry. *)
Definition apart (s : fs) : Prop :=
  (forall id e1 e2, len id = c_idsize C -> In e1 (f_idx s) -> In e2 (f_idx s) ->
     asked (Some id) e1 -> asked (Some id) e2 -> e1 = e2) /\
  (forall e e1 e2, In e (f_idx s) -> flag (e_flags e) IDX_F_SEGMENTED = true -> flag (e_flags e) IDX_F_LASTSEG = false ->
     In e1 (f_idx s) -> In e2 (f_idx s) -> asked (Some (e_cont e)) e1 -> asked (Some (e_cont e)) e2 -> e1 = e2).

(* What s' has more than s is not listed under digits which s uses. *)
Definition new_apart (s s' : fs) : Prop := forall e, In e (f_idx s') -> In e (f_idx s) \/
  ((forall id e1, len id = c_idsize C -> In e1 (f_idx s) -> asked (Some id) e1 -> ~ asked (Some id) e) /\
   (forall e1, In e1 (f_idx s) -> flag (e_flags e1) IDX_F_SEGMENTED = true -> flag (e_flags e1) IDX_F_LASTSEG = false ->
      ~ asked (Some (e_cont e1)) e)).

(* An object which is there: not a silo description, not a later segment. *)
Definition present (s : fs) (id : bytes) (w : wrec) : Prop := exists n o e, in_archive s n o w e /\
  lower (h_id (wr_hdr w)) = lower id /\ ~ has (wr_hdr w) "WARC-Type" (str "warcinfo") /\
  (hasnt (wr_hdr w) "WARC-Segment-Number" \/ has (wr_hdr w) "WARC-Segment-Number" (str "1")).
End Archive.

(* ------------------------------------------------------------------ *)
(* What is expected of libraries, configuration and commands            *)

(* A gzip member as deflate(3) makes it: as [synced], but without the length. *)
Definition unsized (m data : bytes) : Prop := exists xfl B fin,
  m = ([31; 139; 8; 4; 0; 0; 0; 0; xfl; 3; 12; 0; 65; 97; 8; 0] ++ le_enc 8 0) ++
      B ++ fin ++ le_enc 4 (crc32 data) ++ le_enc 4 (len data mod 2 ^ 32) /\
  (exists B0, B = B0 ++ [0; 0; 255; 255]) /\
  blocks [] (to_bits B) (rev data) [] /\
  (fin = [3; 0] \/ fin = [1; 0; 0; 255; 255]).

(* States deflate(3) can be in after calls without flushing or with
   Z_PARTIAL_FLUSH: input taken and output made so far. *)
Inductive zran (L : zlib) : zstate L -> bytes -> bytes -> Prop :=
| zran_0 : zran L (z_init L) [] []
| zran_call s d o i av fl s' c out :
    zran L s d o -> fl = ZNone \/ fl = ZPartial ->
    z_deflate L s i av fl = (s', c, out, ZOk) ->
    zran L s' (d ++ firstn (N.to_nat c) i) (o ++ out).

Record zlib_ok (L : zlib) : Prop := {
  (* never takes more than there is, nor makes more than there is room for *)
  zo_bounds : forall s i av fl s' c out rc, z_deflate L s i av fl = (s', c, out, rc) ->
    c <= len i /\ len out <= av;
  (* without room it fails *)
  zo_noroom : forall s i fl s' c out rc, z_deflate L s i 0 fl = (s', c, out, rc) -> rc = ZErr;
  (* Z_FINISH either ends the stream or fills the output *)
  zo_finish : forall s av s' c out, z_deflate L s [] av ZFinish = (s', c, out, ZOk) -> len out = av;
  (* half a megabyte is enough to flush what is pending, and then to finish *)
  zo_pend_sync : forall s d o av s' c out rc, zran L s d o -> 2 ^ 19 <= av ->
    z_deflate L s [] av ZSync = (s', c, out, rc) -> len out < av;
  zo_pend_fin : forall s d o av1 s1 c1 o1 av s' c out rc, zran L s d o ->
    z_deflate L s [] av1 ZSync = (s1, c1, o1, ZOk) -> len o1 < av1 -> 2 ^ 19 <= av ->
    z_deflate L s1 [] av ZFinish = (s', c, out, rc) -> len out < av;
  (* Z_SYNC_FLUSH which did not fill the output, then Z_FINISH to the end *)
  zo_stream : forall s d o av1 s1 c1 o1 av2 s2 c2 o2, zran L s d o -> is_bytes d ->
    z_deflate L s [] av1 ZSync = (s1, c1, o1, ZOk) -> len o1 < av1 ->
    z_deflate L s1 [] av2 ZFinish = (s2, c2, o2, ZEnd) ->
    unsized (o ++ o1 ++ o2) d;
  (* compressing in memory; level 0 stores *)
  zo_gzip : forall l t, is_bytes t -> len t < 2 ^ 62 ->
    gunzip (z_gzip L l t) = Some (t, []) /\ 24 <= len (z_gzip L l t) <= len t + len t / 64 + 100 /\
    (l = 0 -> len t <= len (z_gzip L l t));
  (* digests are 64 lower case hex digits *)
  zo_sha : forall d, len (z_sha L d) = 64 /\
    Forall (fun c => is_hex c = true /\ is_upper c = false) (z_sha L d) }.

Definition date_ok (d : bytes) : Prop := len d = 20 /\ clean d /\ is_bytes d.

(* The prefix ends in '/', has no odd characters and is not overly long; silo
   file names likewise; a silo has room for a good deal more than its first
   record. *)
Record conf_ok (C : conf) : Prop := {
  co_prefix : clean_prefix (c_prefix C) /\ is_bytes (c_prefix C) /\ len (c_prefix C) <= 500;
  co_idsize : 16 <= c_idsize C <= 64;
  co_max : c_max C < 2 ^ 62;
  co_base : forall n, n < 2 ^ 32 -> clean (c_base C n) /\ is_bytes (c_base C n) /\ len (c_base C n) <= 255;
  co_body : is_bytes (c_wbody C) /\ is_bytes (c_gitrev C);
  co_room : forall n, n < 2 ^ 32 -> 2 * len (warcinfo_body C (c_base C n)) + 10000 <= c_max C }.

Record request_ok (r : request) : Prop := {
  ro_mime : clean (r_mime r) /\ is_bytes (r_mime r) /\ len (r_mime r) <= 500;
  ro_data : Forall (fun d => d <> [] /\ is_bytes d) (r_data r);
  ro_size : len (List.concat (r_data r)) < 2 ^ 62 }.

(* Type and identifier the object of a command gets; [full_ref] is the text of the
   -r argument brought to its full form. *)
Definition req_type (r : request) : bytes := if r_meta r then str "metadata" else str "resource".
Definition full_ref (C : conf) (r : request) : bytes :=
  if len (r_ref r) =? c_idsize C then c_prefix C ++ r_ref r else r_ref r.
Definition req_id (C : conf) (sha : bytes -> bytes) (r : request) (id : bytes) : Prop :=
  let data := List.concat (r_data r) in
  match r_ident r with
  | Some i => id = firstn (N.to_nat (c_idsize C)) i
  | None =>
      if r_meta r
      then id = firstn (N.to_nat (c_idsize C))
                  (sha ((str "<" ++ full_ref C r ++ str ">") ++ [10] ++ sha data ++ [10]))
      else id = firstn (N.to_nat (c_idsize C)) (sha data)
  end.
