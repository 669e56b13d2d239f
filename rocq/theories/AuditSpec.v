(* Specification of the audit: what its report has to be compared with. *)
From Coq Require Import String Permutation.
From Verif Require Import Base IndexModel HeaderModel HeaderSpec InflateSpec GzipModel GzipSpec ProgModel StoreModel StoreSpec ReindexSpec AuditModel.
Open Scope string_scope.
Open Scope list_scope.
Open Scope N_scope.

(* A number as in C, with what is behind it: white space, a sign, then decimal,
   octal or hexadecimal digits, as many as there are.  Those too large are 2^64 - 1,
   negative ones are taken modulo 2^64. *)
Definition digit (c v : N) : Prop := 48 <= c <= 57 /\ c = 48 + v \/ 65 <= c <= 90 /\ c = 55 + v \/ 97 <= c <= 122 /\ c = 87 + v.
Inductive numeral (b : N) : bytes -> N -> Prop :=
| numeral_one c v : digit c v -> v < b -> numeral b [c] v
| numeral_more s n c v : numeral b s n -> digit c v -> v < b -> numeral b (s ++ [c]) (n * b + v).
Definition no_digit (b : N) (s : bytes) : Prop := match s with [] => True | c :: _ => forall v, digit c v -> b <= v end.
Inductive radix : bytes -> bytes -> bytes -> N -> Prop :=
| radix_dec c s r : c <> 48 -> radix [] (c :: s) r 10
| radix_oct s r : (s = [] -> match r with x :: r => (x = 120 \/ x = 88) -> no_digit 16 r | [] => True end) -> radix [] (48 :: s) r 8
| radix_hex x s r : (x = 120 \/ x = 88) -> radix [48; x] s r 16.
Definition c_number (s : bytes) (n : N) (r : bytes) : Prop := exists blanks sign pre b ds m,
  s = blanks ++ sign ++ pre ++ ds ++ r /\ Forall (fun c => c = 32 \/ 9 <= c <= 13) blanks /\ In sign [[]; [43]; [45]] /\
  radix pre ds r b /\ numeral b ds m /\ no_digit b r /\
  (2 ^ 64 <= m -> n = 2 ^ 64 - 1) /\ (m < 2 ^ 64 -> n < 2 ^ 64 /\ if bytes_eqb sign [45] then (n + m) mod 2 ^ 64 = 0 else n = m).

Section Audit.
Variable C : conf.
Variable L : zlib.
Notation prefix := (c_prefix C).

(* Any file which is a sequence of records, whatever they say: for each the gzip
   member with the body, and header and body. *)
Inductive holds : bytes -> list (bytes * wrec) -> Prop :=
| holds_nil : holds [] []
| holds_cons H B t w s l : gunzip H = Some (t, []) -> Header_Parse prefix (cstr t) = Ok (wr_hdr w) ->
    gunzip B = Some (wr_data w, []) -> holds s l ->
    holds (H ++ B ++ crnlcrnl ++ s) ((B, w) :: l).

(* That identifier follows from the type and the digest of the content; the one of
   metadata depends on what it is about as well. *)
Definition named_for (hd : header) (dig : bytes) : Prop :=
  ((has hd "WARC-Type" (str "resource") \/ has hd "WARC-Type" (str "continuation") \/ has hd "WARC-Type" (str "warcinfo")) /\
   h_id hd = firstn (N.to_nat (c_idsize C)) dig) \/
  (has hd "WARC-Type" (str "metadata") /\ exists ref, has hd "WARC-Refers-To" ref /\
   h_id hd = firstn (N.to_nat (c_idsize C)) (z_sha L (ref ++ [10] ++ dig ++ [10]))).

(* What a record says of itself is true: length and digest of the body, size of
   the gzip member; the segment number is a number; and the identifier is the right
   one, which cannot be said of a first segment by itself. *)
Definition agrees (ign : bool) (x : bytes * wrec) : Prop :=
  let (B, w) := x in let hd := wr_hdr w in
  has hd "Content-Length" (dec (len (wr_data w))) /\
  has hd "WARC-Block-Digest" (str "sha256:" ++ z_sha L (wr_data w)) /\
  le_dec (firstn 8 (skipn 16 B)) = len B /\
  (forall v, has hd "WARC-Segment-Number" v -> exists n, c_number v n []) /\
  (has hd "WARC-Segment-Number" (str "1") \/ (ign = true /\ has hd "WARC-Type" (str "metadata")) \/
   named_for hd (z_sha L (wr_data w))).

(* Segment number k; the program looks at 32 bits only, and what is behind the number
   is a matter of [agrees] *)
Definition numbered (w : wrec) (k : N) : Prop := exists v n r,
  has (wr_hdr w) "WARC-Segment-Number" v /\ c_number v n r /\ n mod 2 ^ 32 = k.

(* Segments from number k on up to the last, of the object id with that content *)
Fixpoint later_ok (id total : bytes) (k : N) (ws : list wrec) : Prop :=
  match ws with
  | [] => False
  | w :: r =>
      numbered w k /\
      (exists t, has (wr_hdr w) "WARC-Segment-Origin-ID" (str "<" ++ prefix ++ id ++ str ">" ++ t)) /\
      match r with
      | [] => has (wr_hdr w) "WARC-Segment-Total-Length" (dec (len total))
      | _ => hasnt (wr_hdr w) "WARC-Segment-Total-Length" /\ later_ok id total (k + 1) r
      end
  end.

(* A complete object *)
Definition object (ws : list wrec) : Prop := exists w r total,
  ws = w :: r /\ total = List.concat (map wr_data ws) /\ numbered w 1 /\
  has (wr_hdr w) "WARC-Payload-Digest" (str "sha256:" ++ z_sha L total) /\
  named_for (wr_hdr w) (z_sha L total) /\ later_ok (h_id (wr_hdr w)) total 2 r.

(* The part of the report about one object: its name, and nothing more exactly if
   it is complete and as it should be. *)
Definition told (ws : list wrec) (out : list line) : Prop := exists w r es,
  ws = w :: r /\ out = LObject (h_id (wr_hdr w)) :: es /\ (es = [] <-> object ws) /\
  (es = [] \/ exists e, In (LError e) es).

Definition is_segment (w : wrec) : Prop := exists v, has (wr_hdr w) "WARC-Segment-Number" v.
(* The totals, and the headers of the records complained about *)
Definition totals (l : list line) : list (N * N) :=
  flat_map (fun x => match x with LTotal g b => [(g, b)] | _ => [] end) l.
Definition reported (l : list line) : list header :=
  flat_map (fun x => match x with LReport hd _ _ => [hd] | _ => [] end) l.

Definition marks (l : list line) : list bool :=
  flat_map (fun x => match x with LGood n => repeat true (N.to_nat n) | LReport _ _ _ => [false] | _ => [] end) l.

(* One silo: its number, the file, the records in it, and the part of the report
   about it, which gives the number, how many records agree and how many do not,
   and complains about exactly those which do not, in order; if there are any, it
   tells how many are good before, between and behind them. *)
Record visit := mkV { v_no : Z; v_file : bytes; v_recs : list (bytes * wrec); v_out : list line }.
Definition told_silo (ign : bool) (v : visit) : Prop := holds (v_file v) (v_recs v) /\
  exists body oks, v_out v = LSilo (v_no v) :: body /\ Forall2 (fun x ok => ok = true <-> agrees ign x) (v_recs v) oks /\
    reported body = map (fun x => wr_hdr (snd (fst x))) (filter (fun x => negb (snd x)) (combine (v_recs v) oks)) /\
    totals body = [(len (filter (fun ok => ok) oks), len (filter negb oks))] /\
    marks body = (if forallb (fun ok => ok) oks then [] else oks) /\ ~ In (LGood 0) body.

(* Those in segments and the others *)
Definition parted (all segs plain : list wrec) : Prop :=
  Permutation all (segs ++ plain) /\ Forall is_segment segs /\ Forall (fun w => ~ is_segment w) plain.
End Audit.

(* The report has no complaint. *)
Definition no_complaint (l : list line) : Prop := Forall (fun x =>
  match x with
  | LError _ | LMissing _ | LLeft _ _ _ _ => False
  | LTotal _ bad => bad = 0
  | _ => True
  end) l.

(* A line which is a complaint *)
Definition complaint (x : line) : Prop := match x with LError _ | LMissing _ | LLeft _ _ _ _ => True | _ => False end.

(* The numbers below k, and what is in a silo *)
Definition upto (k : N) : list N := map N.of_nat (seq 0 (N.to_nat k)).
Definition content (s : fs) (n : N) : bytes := match f_silo s n with Some (b, _) => b | None => [] end.

Section Archive.
Variable C : conf.
Variable L : zlib.

(* Every segment is part of an object which is completely there. *)
Definition entire (s : fs) : Prop := forall n o w e v,
  in_archive C L s n o w e -> has (wr_hdr w) "WARC-Segment-Number" v ->
  exists typ id data ps p, len id = c_idsize C /\ stored_as C L s typ id data ps /\ (2 <= List.length ps)%nat /\
    In p ps /\ p_silo p = n /\ p_off p = o.

(* Among the segments of an object from the second on, later ones are in higher
   numbered silos, or further behind in the same one. *)
Definition in_order (s : fs) : Prop := forall n o w e n' o' w' e' id k k',
  in_archive C L s n o w e -> in_archive C L s n' o' w' e' ->
  segment_of C w id k -> segment_of C w' id k' -> 2 <= k -> k < k' -> n < n' \/ n = n' /\ o < o'.

(* The silos have the numbers up to k. *)
Definition gapless (s : fs) (k : N) : Prop := forall n, f_silo s n <> None <-> n < k.

(* Metadata have the identifiers they get unless told otherwise (main_store -i); if
   asked for, those not in segments are left out. *)
Definition meta_named (ign : bool) (s : fs) : Prop := forall n o w e,
  in_archive C L s n o w e -> has (wr_hdr w) "WARC-Type" (str "metadata") ->
  (hasnt (wr_hdr w) "WARC-Segment-Number" -> ign = true \/ named_for C L (wr_hdr w) (z_sha L (wr_data w))) /\
  (forall x, has (wr_hdr w) "WARC-Payload-Digest" (str "sha256:" ++ x) -> named_for C L (wr_hdr w) x).
End Archive.
