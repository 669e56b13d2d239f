(* Model of main_audit.c: what the audit command prints.

   Every printf(3) is one [line]; the text of a line follows from its arguments and
   is not modelled.  SHA256 is z_sha; its contexts are the bytes fed to them.  The
   counters are not bounded.  Files do not change while they are audited. *)
From Coq Require Import String.
From Verif Require Import Base IndexModel HeaderModel InflateSpec GzipModel ProgModel StoreModel.
Open Scope string_scope.
Open Scope list_scope.
Open Scope N_scope.

(* The complaints, main_audit.c:77-81, 93-99, 173-175, 261-263, 287-288, 297 *)
Inductive err :=
| EMissing (name : bytes)
| ENotSha (name : bytes)
| EDiff (name is should : bytes)
| ELength (is should : Z)
| ENumber.

(* What is printed, main_audit.c:114-136, 194, 229, 240, 322, 355-358, 371, 374, 436.
   A silo is known by its number, which is -1 if it was named; without a name the
   code passes NULL for the name, which the C libraries print as (null) *)
Inductive line :=
| LSilo (n : Z)
| LGood (n : N)
| LError (e : err)
| LReport (hd : header) (o1 o2 : N)
| LTotal (good bad : N)
| LObject (id : bytes)
| LMissing (no : Z)
| LLeft (n : Z) (o1 o2 : N) (no : Z).

(* struct audit, main_audit.c:45-62, of a segment.  The body is kept; the code
   reads it again from the file at o0 (audit_add_one_segment, 138-153), and asserts
   that it ends at o2. *)
Record aud := mkAud { a_silo : Z; a_o1 : N; a_o2 : N; a_hdr : header; a_data : bytes; a_no : Z }.

(* strtoul(3) with base 0 at main_audit.c:295: the number and the text behind it,
   or nothing if there is no number.  [base_digit] is the value of a digit. *)
Definition base_digit (b c : N) : option N :=
  let v := if (48 <=? c) && (c <=? 57) then c - 48
           else if (65 <=? c) && (c <=? 90) then c - 55
           else if (97 <=? c) && (c <=? 122) then c - 87 else 99 in
  if v <? b then Some v else None.
Fixpoint base_scan (b a : N) (s : bytes) : N * bytes :=
  match s with
  | c :: r => match base_digit b c with Some v => base_scan b (a * b + v) r | None => (a, s) end
  | [] => (a, [])
  end.
Fixpoint skip_blank (s : bytes) : bytes :=
  match s with
  | c :: r => if (c =? 32) || (9 <=? c) && (c <=? 13) then skip_blank r else s
  | [] => []
  end.
Definition unsign (s : bytes) : bool * bytes :=
  match s with 45 :: r => (true, r) | 43 :: r => (false, r) | r => (false, r) end.
Definition strtoul0 (s : bytes) : option (N * bytes) :=
  let (neg, s) := unsign (skip_blank s) in
  let num b r := let (v, r) := base_scan b 0 r in
                 Some (if 2 ^ 64 <=? v then 2 ^ 64 - 1 else if neg : bool then (2 ^ 64 - v) mod 2 ^ 64 else v, r) in
  match s with
  | 48 :: x :: c :: r =>
      if ((x =? 120) || (x =? 88)) && match base_digit 16 c with Some _ => true | None => false end
      then num 16 (c :: r) else num 8 s
  | 48 :: _ => num 8 s
  | c :: _ => match base_digit 10 c with Some _ => num 10 s | None => None end
  | [] => None
  end.

(* An unsigned long assigned to an int *)
Definition to_int (n : N) : Z :=
  let m := n mod 2 ^ 32 in if m <? 2 ^ 31 then Z.of_N m else (Z.of_N m - 2 ^ 32)%Z.

Section Audit.
Variable C : conf.
Variable L : zlib.
Variable ign : bool.             (* ignore_metadata_record_id *)

(* audit_check_header, main_audit.c:69-83 *)
Definition check_header (hd : header) (name : string) (expect : bytes) : list err :=
  match Header_Get hd (str name) with
  | None => [EMissing (str name)]
  | Some is => if bytes_eqb expect is then [] else [EDiff (str name) is expect]
  end.

(* audit_check_digest_header, main_audit.c:85-101; memcmp(3) of 7 bytes needs 7
   bytes, of which the last may be the NUL *)
Definition check_digest_header (hd : header) (name : string) (expect : bytes) : res (list err) :=
  match Header_Get hd (str name) with
  | None => Ok [EMissing (str name)]
  | Some is =>
      if len is <? 6 then UB
      else if negb (bytes_eqb (firstn 7 is) (str "sha256:")) then Ok [ENotSha (str name)]
      else if bytes_eqb (skipn 7 is) expect then Ok [] else Ok [EDiff (str name) is expect]
  end.

(* the comparison of identifiers, main_audit.c:171-176, 256-264 *)
Definition check_id (hd : header) (dig : bytes) : res (list err) :=
  let* id := Ident_Create (z_sha L) (c_idsize C) hd dig in
  if bytes_eqb id (Header_Get_Id hd) then Ok []
  else Ok [EDiff (str "WARC-Record-ID") (Header_Get_Id hd) id].

(* audit_check_ident, main_audit.c:244-267 *)
Definition audit_check_ident (hd : header) (dig : bytes) : res (list err) :=
  match Header_Get hd (str "WARC-Type") with
  | None => Abort
  | Some type => if negb (bytes_eqb type (str "metadata")) || negb ign then check_id hd dig else Ok []
  end.

(* audit_one, main_audit.c:269-304: the complaints, and the number if it is a segment *)
Definition audit_one (hd : header) (d : bytes) (bl : Z) (o1 o2 : N) : res (list err * option Z) :=
  let dig := z_sha L d in
  let* e1 := check_digest_header hd "WARC-Block-Digest" dig in
  let e2 := check_header hd "Content-Length" (dec (len d)) in
  let e3 := if (bl =? Z.of_N o2 - Z.of_N o1)%Z then [] else [ELength bl (Z.of_N o2 - Z.of_N o1)] in
  let is := Header_Get hd (str "WARC-Segment-Number") in
  let (e4, no) :=
    match is with
    | None => ([], None)
    | Some is => match strtoul0 is with
                 | None => ([ENumber], Some 0%Z)
                 | Some (n, []) => ([], Some (to_int n))
                 | Some (n, _ :: _) => ([ENumber], Some (to_int n))
                 end
    end in
  let* e5 :=
    if match is with Some is => bytes_eqb is (str "1") | None => false end then Ok []
    else audit_check_ident hd dig in
  Ok (e1 ++ e2 ++ e3 ++ e4 ++ e5, no).

(* Rsilo_ReadChunk (rsilo.c:259-304) and Rsilo_Tell after it: what was read and
   where it ends *)
Definition read_chunk (b : bytes) (off : N) : res (bytes * N) :=
  match gunzip (skipn (N.to_nat off) b) with
  | None => Abort
  | Some (d, rest) => Ok (d, len b - len rest)
  end.

(* Rsilo_SkipCRNL, rsilo.c:308-319 *)
Definition skip_crnl (b : bytes) (off : N) : res N :=
  if bytes_eqb (file_read b off (len crnlcrnl)) crnlcrnl then Ok (off + len crnlcrnl) else Abort.

(* The loop of audit_silo, main_audit.c:327-371, from offset off, with ngood, tgood
   and tbad: what is printed, and the segments found *)
Fixpoint silo_loop (fuel : nat) (n : Z) (b : bytes) (off ngood tgood tbad : N) : res (list line * list aud) :=
  match fuel with
  | O => Fuel
  | S fuel =>
      let* h := Rsilo_ReadHeader C b off in
      match h with
      | None => Ok ((if negb (tbad =? 0) && negb (ngood =? 0) then [LGood ngood] else []) ++ [LTotal tgood tbad], [])
      | Some (hd, bl, o1) =>
          let* (d, o2) := read_chunk b o1 in
          let* next := skip_crnl b o2 in
          let* (es, no) := audit_one hd d bl o1 o2 in
          let seg := match no with Some k => [mkAud n o1 o2 hd d k] | None => [] end in
          match es with
          | [] =>
              let* (ls, segs) := silo_loop fuel n b next (ngood + 1) (tgood + 1) tbad in
              Ok (ls, seg ++ segs)
          | _ =>
              let* (ls, segs) := silo_loop fuel n b next 0 tgood (tbad + 1) in
              Ok ((if ngood =? 0 then [] else [LGood ngood]) ++ map LError es ++ [LReport hd o1 o2] ++ ls, seg ++ segs)
          end
      end
  end.

(* audit_silo, main_audit.c:306-376; every record takes at least one byte *)
Definition audit_silo (n : Z) (b : bytes) : res (list line * list aud) :=
  let* (ls, segs) := silo_loop (S (List.length b)) n b 0 0 0 0 in
  Ok (LSilo n :: ls, segs).

Fixpoint audit_silos (files : list (Z * bytes)) : res (list line * list aud) :=
  match files with
  | [] => Ok ([], [])
  | (n, b) :: r =>
      let* (l1, s1) := audit_silo n b in
      let* (l2, s2) := audit_silos r in
      Ok (l1 ++ l2, s1 ++ s2)
  end.

(* Whether segment x follows segment ap of object oid, main_audit.c:206-220.
   Adding one to the largest int is UB, and so is comparing with less than a
   prefix. *)
Definition follows (oid : bytes) (ap x : aud) : res bool :=
  if (a_no ap =? 2 ^ 31 - 1)%Z then UB else
  if negb (a_no x =? a_no ap + 1)%Z then Ok false else
  match Header_Get (a_hdr x) (str "WARC-Segment-Origin-ID") with
  | None => Ok false
  | Some [] => Ok false
  | Some (c :: o) =>
      if negb (c =? 60) then Ok false else
      if len o + 1 <? len (c_prefix C) then UB else
      let np := List.length (c_prefix C) in
      if negb (bytes_eqb (firstn np o) (c_prefix C)) then Ok false else
      let o := skipn np o in
      if negb (bytes_eqb (firstn (List.length oid) o) oid) then Ok false else
      match skipn (List.length oid) o with
      | c :: _ => Ok (c =? 62)
      | [] => Ok false
      end
  end.

(* VTAILQ_FOREACH_SAFE at main_audit.c:204-237, from the list l, with ap, the body
   so far and whether ap is another than ap1: those afterwards, what is left of the
   list, and the last segment if it was found *)
Fixpoint pass (oid : bytes) (ap : aud) (d : bytes) (mv : bool) (l : list aud)
  : res (aud * bytes * bool * list aud * option aud) :=
  match l with
  | [] => Ok (ap, d, mv, [], None)
  | x :: r =>
      let* y := follows oid ap x in
      if y : bool then
        match Header_Get (a_hdr x) (str "WARC-Segment-Total-Length") with
        | Some _ => Ok (ap, d ++ a_data x, mv, r, Some x)
        | None => pass oid x (d ++ a_data x) true r
        end
      else
        let* (ap, d, mv, r, z) := pass oid ap d mv r in Ok (ap, d, mv, x :: r, z)
  end.

(* audit_final_pending, main_audit.c:155-177 *)
Definition audit_final (ap0 : aud) (apn : aud) (d : bytes) : res (list err) :=
  let e1 := check_header (a_hdr apn) "WARC-Segment-Total-Length" (dec (len d)) in
  let dig := z_sha L d in
  let* e2 := check_digest_header (a_hdr ap0) "WARC-Payload-Digest" dig in
  let* e3 := check_id (a_hdr ap0) dig in
  Ok (e1 ++ e2 ++ e3).

(* The loop at main_audit.c:202-241: what is printed, the list, and whether to go
   on with another object *)
Fixpoint pend_loop (fuel : nat) (ap0 ap : aud) (d : bytes) (l : list aud) : res (list line * list aud * bool) :=
  match fuel with
  | O => Fuel
  | S fuel =>
      let* (ap, d, mv, l, z) := pass (Header_Get_Id (a_hdr ap0)) ap d false l in
      match z with
      | Some x =>
          let* es := audit_final ap0 x d in
          match es with
          | [] => Ok ([], l, true)
          | _ => Ok (map LError es ++ [LReport (a_hdr ap) (a_o1 ap) (a_o2 ap)], l, true)
          end
      | None =>
          if mv : bool then
            if (a_no ap =? 2 ^ 31 - 1)%Z then UB else Ok ([LMissing (a_no ap + 1)], l, false)
          else pend_loop fuel ap0 ap d l
      end
  end.

(* The first segment at main_audit.c:186-193 and the list without it *)
Fixpoint take_first (l : list aud) : option (aud * list aud) :=
  match l with
  | [] => None
  | x :: r => if (a_no x =? 1)%Z then Some (x, r)
              else match take_first r with Some (y, r) => Some (y, x :: r) | None => None end
  end.

(* audit_one_pending, main_audit.c:179-242, and the loops at main_audit.c:433-438 *)
Fixpoint audit_pending (fuel : nat) (l : list aud) : res (list line) :=
  match fuel with
  | O => Fuel
  | S fuel =>
      let left l := map (fun x => LLeft (a_silo x) (a_o1 x) (a_o2 x) (a_no x)) l in
      match take_first l with
      | None => Ok (left l)
      | Some (ap0, l) =>
          let* (ls, l, more) := pend_loop fuel ap0 ap0 (a_data ap0) l in
          let ls := LObject (Header_Get_Id (a_hdr ap0)) :: ls in
          if more : bool then let* ls' := audit_pending fuel l in Ok (ls ++ ls')
          else Ok (ls ++ left l)
      end
  end.

(* main_audit, main_audit.c:392-442, given the files it opens: a number (-1 if the
   file was named) and the contents *)
Definition main_audit (fuel : nat) (files : list (Z * bytes)) : res (list line) :=
  let* (ls, segs) := audit_silos files in
  let* ls' := audit_pending fuel segs in
  Ok (ls ++ ls').

(* The files it opens without arguments, main_audit.c:421-424: from number i on, up
   to the first which cannot be opened *)
Fixpoint opened (fuel : nat) (s : fs) (i : N) : res (list (Z * bytes)) :=
  match fuel with
  | O => Fuel
  | S fuel =>
      match f_silo s i with
      | None => Ok []
      | Some (b, _) => let* r := opened fuel s (i + 1) in Ok ((Z.of_N i, b) :: r)
      end
  end.
Definition audit_archive (fuel : nat) (s : fs) : res (list line) :=
  let* files := opened fuel s 0 in
  main_audit fuel files.

(* The files it opens with arguments, main_audit.c:425-429; None is one which cannot
   be opened *)
Fixpoint opened_named (l : list (option bytes)) : list (Z * bytes) :=
  match l with
  | Some b :: r => ((-1)%Z, b) :: opened_named r
  | _ => []
  end.
Definition audit_named (fuel : nat) (l : list (option bytes)) : res (list line) :=
  main_audit fuel (opened_named l).
End Audit.
