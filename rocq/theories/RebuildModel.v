(* Model of main_rebuild.c: silos written anew.

   What is printed for fixed records is left out.  The descriptor fdo is the contents
   of the new file, of which the position is always the end, except for Gzip_WriteAa;
   write(2) does not fall short.  deflateEnd and inflateEnd do not fail.  The new file
   is another one than those which are read. *)
From Coq Require Import String.
From Verif Require Import Base IndexModel HeaderModel InflateSpec GzipModel ProgModel StoreModel.
Open Scope string_scope.
Open Scope list_scope.
Open Scope N_scope.

(* rb->state: 0, 1, 3, 10, 11, 20 *)
Inductive rst := RStart | RHead | RFix | RBody | RDeflate | RSkip.

(* strstr(hdrbuf, "\r\n\r\n") at main_rebuild.c:91, plus 4 *)
Fixpoint crlfcrlf (s : bytes) : option N :=
  match s with
  | [] => None
  | c :: r => if bytes_eqb (firstn 4 s) [13; 10; 13; 10] then Some 4
              else match crlfcrlf r with Some n => Some (n + 1) | None => None end
  end.

(* sizeof rb->obuf, main_rebuild.c:62; ps * 16 at main_rebuild.c:240-241 with pages of
   4096 bytes *)
Definition ROOM : N := 131072.
Definition OBUF : N := 65536.

Section Rebuild.
Variable C : conf.
Variable L : zlib.
Variable bufsiz : N.              (* BUFSIZ of stdio.h: 1024 or 8192 *)

(* struct rebuild, main_rebuild.c:48-66.  hdrbuf and fixbuf are what has been put
   there; avail_in and next_in are kept apart from the rest of zs. *)
Record rebuild := mkRb {
  b_state : rst; b_out : bytes; b_hdr : bytes; b_fix : bytes; b_rlen : Z; b_start : N;
  b_zs : zstate L; b_in : bytes; b_sha : bytes; b_h : option header; b_clen : Z }.

(* main_rebuild, main_rebuild.c:326-330: all is zero *)
Definition rb_new : rebuild := mkRb RStart [] [] [] 0 0 (z_init L) [] [] None 0.

(* Header_Serialize with level 0 (header.c:270-273) and write(2), then lseek,
   Gzip_InitDeflate and Gzip_AddAa: main_rebuild.c:112-125, 157-171.  Then it goes on
   in state st with that rlen and next_in. *)
Definition put_header (rb : rebuild) (hd : header) (st : rst) (rlen : Z) (i : bytes) : res rebuild :=
  let* p := Gzip_Vsb (z_gzip L) 0 (Header_Serialize (c_prefix C) hd) in
  let out := b_out rb ++ p in
  Ok (mkRb st out [] (b_fix rb) rlen (len out) (z_init L) i (b_sha rb) None (b_clen rb)).

(* main_rebuild.c:80-127: a piece of the header; all of it is taken *)
Definition take_header (rb : rebuild) (p : bytes) : res rebuild :=
  let* _ := guard (len (b_hdr rb) + len p + 1 <? bufsiz) in
  let buf := b_hdr rb ++ p in
  match crlfcrlf (cstr buf) with
  | None => Ok (mkRb RHead (b_out rb) buf (b_fix rb) (b_rlen rb) (b_start rb) (b_zs rb) (b_in rb) (b_sha rb) (b_h rb) (b_clen rb))
  | Some n =>
      let* _ := guard (n =? len buf) in
      let* _ := guard (match b_h rb with None => true | Some _ => false end) in
      let* hd := Header_Parse (c_prefix C) (cstr buf) in
      let* clen := Header_Get_Number hd (str "Content-Length") in
      let* hd := Header_Delete hd (str "Content-Length-GZIP") in
      let* hd := Header_Delete hd (str "z") in
      match Header_Get hd (str "WARC-record-digest") with
      | Some _ => Ok (mkRb RFix (b_out rb) buf (b_fix rb) 0 (b_start rb) (b_zs rb) (b_in rb) [] (Some hd) clen)
      | None =>
          put_header (mkRb RHead (b_out rb) buf (b_fix rb) (b_rlen rb) (b_start rb) (b_zs rb) (b_in rb) (b_sha rb) None clen)
            hd RBody clen []
      end
  end.

(* main_rebuild.c:129-173: a piece of the body of a record to be fixed.  A negative
   size given to memcpy(3), or one beyond fixbuf, is UB. *)
Definition take_fix (rb : rebuild) (p : bytes) : res (rebuild * bytes) :=
  match b_h rb with
  | None => UB
  | Some hd =>
      let* hd := Header_Delete hd (str "WARC-record-digest") in
      let oz := Z.min (b_clen rb - b_rlen rb) (Z.of_N (len p)) in
      if (oz <? 0)%Z then UB else
      let d := firstn (Z.to_nat oz) p in
      let p := skipn (Z.to_nat oz) p in
      if (Z.of_N bufsiz <? b_rlen rb + oz)%Z then UB else
      let sha := b_sha rb ++ d in
      let fix_ := firstn (Z.to_nat (b_rlen rb)) (b_fix rb) ++ d in
      let rlen := (b_rlen rb + oz)%Z in
      let rb := mkRb RFix (b_out rb) (b_hdr rb) fix_ rlen (b_start rb) (b_zs rb) (b_in rb) sha (Some hd) (b_clen rb) in
      if (rlen <? b_clen rb)%Z then Ok (rb, p) else
      let dig := z_sha L sha in
      let* hd := Header_Set hd (str "WARC-Block-digest") (str "sha256:" ++ dig) in
      let* hd := Header_Set_Id (c_idsize C) hd dig in
      let* rb := put_header rb hd RDeflate 0 (firstn (Z.to_nat (b_clen rb)) fix_) in
      Ok (rb, p)
  end.

(* main_rebuild.c:186-218: deflate(3) what there is; at the end of the body finish the
   record.  What deflate(3) does not take is lost. *)
Definition do_deflate (rb : rebuild) : res rebuild :=
  let* (zs, i, o) :=
    if (0 <? b_rlen rb)%Z then
      let '(zs, c, o, rc) := z_deflate L (b_zs rb) (b_in rb) ROOM ZNone in
      match rc with ZOk => Ok (zs, skipn (N.to_nat c) (b_in rb), o) | _ => Abort end
    else
      let '(zs, c, o, rc) := z_deflate L (b_zs rb) (b_in rb) ROOM ZSync in
      match rc with
      | ZOk =>
          let i := skipn (N.to_nat c) (b_in rb) in
          let '(zs, c, o2, rc) := z_deflate L zs i (ROOM - len o) ZFinish in
          match rc with ZEnd => Ok (zs, skipn (N.to_nat c) i, o ++ o2) | _ => Abort end
      | _ => Abort
      end in
  let out := b_out rb ++ o in
  if negb (b_rlen rb =? 0)%Z then
    Ok (mkRb RBody out (b_hdr rb) (b_fix rb) (b_rlen rb) (b_start rb) zs i (b_sha rb) (b_h rb) (b_clen rb))
  else
    let* out := Gzip_WriteAa out (b_start rb) (Z.of_N (len out) - Z.of_N (b_start rb)) in
    Ok (mkRb RSkip (out ++ crnlcrnl) (b_hdr rb) (b_fix rb) 4 (b_start rb) zs i (b_sha rb) (b_h rb) (b_clen rb)).

(* main_rebuild.c:174-185: a piece of a body.  A negative length becomes a large
   avail_in, which is UB. *)
Definition take_body (rb : rebuild) (p : bytes) : res (rebuild * bytes) :=
  if (b_rlen rb <? 0)%Z then UB else
  let oz := Z.min (b_rlen rb) (Z.of_N (len p)) in
  Ok (mkRb RDeflate (b_out rb) (b_hdr rb) (b_fix rb) (b_rlen rb - oz) (b_start rb) (b_zs rb)
        (firstn (Z.to_nat oz) p) (b_sha rb) (b_h rb) (b_clen rb), skipn (Z.to_nat oz) p).

(* main_rebuild.c:219-229: what is behind a body *)
Definition take_skip (rb : rebuild) (p : bytes) : rebuild * bytes :=
  let oz := Z.min (b_rlen rb) (Z.of_N (len p)) in
  let rlen := (b_rlen rb - oz)%Z in
  (mkRb (if (rlen =? 0)%Z then RStart else RSkip) (b_out rb) (b_hdr rb) (b_fix rb) rlen (b_start rb) (b_zs rb)
     (b_in rb) (b_sha rb) (b_h rb) (b_clen rb), skipn (Z.to_nat oz) p).

(* rebuild_process, main_rebuild.c:69-231: the loop.  At most two turns in a row take
   nothing. *)
Fixpoint process_loop (fuel : nat) (rb : rebuild) (p : bytes) : res rebuild :=
  match p with
  | [] => Ok rb
  | _ =>
      match fuel with
      | O => Fuel
      | S fuel =>
          match b_state rb with
          | RStart => let* _ := guard (len (b_hdr rb) =? 0) in take_header rb p
          | RHead => take_header rb p
          | RFix => let* (rb, p) := take_fix rb p in process_loop fuel rb p
          | RBody => let* (rb, p) := take_body rb p in
                     let* rb := do_deflate rb in process_loop fuel rb p
          | RDeflate => let* rb := do_deflate rb in process_loop fuel rb p
          | RSkip => let (rb, p) := take_skip rb p in process_loop fuel rb p
          end
      end
  end.
Definition rebuild_process (rb : rebuild) (p : bytes) : res rebuild :=
  process_loop (4 + 4 * List.length p) rb p.

Section Inflate.
(* Whether the byte behind the array obuf of rebuild_silo_iter may be overwritten: at
   main_rebuild.c:279 it is, if inflate(3) has filled the array *)
Variable spare : bool.
(* What inflate(3) puts into obuf, call by call, for the gzip member in front of that
   text, up to its end or to an error *)
Variable split : bytes -> list bytes.

Fixpoint rebuild_pieces (rb : rebuild) (ps : list bytes) : res rebuild :=
  match ps with
  | [] => Ok rb
  | p :: ps =>
      if (OBUF <=? len p) && negb spare then UB else
      let* rb := rebuild_process rb p in rebuild_pieces rb ps
  end.

(* The loop at main_rebuild.c:267-286 from the beginning of a member on: f is what
   has not been inflated.  It ends at the end of the file, and at anything which
   inflate(3) does not like.  (There is at least a byte in every member.) *)
Fixpoint silo_members (fuel : nat) (rb : rebuild) (f : bytes) : res rebuild :=
  match f with
  | [] => Ok rb
  | _ =>
      match fuel with
      | O => Fuel
      | S fuel =>
          let* rb := rebuild_pieces rb (split f) in
          match gunzip f with
          | None => Ok rb
          | Some (_, rest) => silo_members fuel rb rest
          end
      end
  end.

(* rebuild_silo_iter, main_rebuild.c:234-291: f is the contents of the file; the new
   file is empty at first *)
Definition rebuild_silo (rb : rebuild) (f : bytes) : res rebuild :=
  silo_members (S (List.length f)) (mkRb (b_state rb) [] (b_hdr rb) (b_fix rb) (b_rlen rb) (b_start rb)
    (b_zs rb) (b_in rb) (b_sha rb) (b_h rb) (b_clen rb)) f.

(* The loops of main_rebuild, main_rebuild.c:332-335: for each file the new one; None
   is one which cannot be opened *)
Fixpoint rebuild_files (rb : rebuild) (files : list (option bytes)) : res (list (option bytes)) :=
  match files with
  | [] => Ok []
  | None :: r => let* l := rebuild_files rb r in Ok (None :: l)
  | Some f :: r =>
      let* rb := rebuild_silo rb f in
      let* l := rebuild_files rb r in Ok (Some (b_out rb) :: l)
  end.
Definition main_rebuild (files : list (option bytes)) : res (list (option bytes)) :=
  rebuild_files rb_new files.
End Inflate.
End Rebuild.
