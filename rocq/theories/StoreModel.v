(* Model of the store and get paths: /repo/wsilo.c, /repo/warcinfo.c,
   /repo/segjob.c, /repo/rsilo.c, /repo/getjob.c, /repo/main_store.c and
   /repo/main_get.c.  Everything between two system calls is local to the
   process. *)
From Coq Require Import String.
From Verif Require Import Base IndexModel IndexSpec HeaderModel InflateSpec GzipModel ProgModel.
Open Scope string_scope.
Open Scope list_scope.
Open Scope N_scope.

(* The parts of struct aardwarc (aardwarc.h) which do not change: prefix,
   id_size, silo_maxsize, what silo.basename prints for a silo number, what
   Config_Iter() prints into the warcinfo body (warcinfo.c:54-71, 100), GITREV.
   [c_fuel] bounds the loops of the model; running out of it is [Die DFuel]. *)
Record conf := mkConf {
  c_prefix : bytes; c_idsize : N; c_max : N; c_base : N -> bytes;
  c_wbody : bytes; c_gitrev : bytes; c_fuel : nat }.

Inductive zflush := ZNone | ZPartial | ZSync | ZFinish.
Inductive zrc := ZOk | ZEnd | ZErr.

(* zlib and libmd, of which nothing is assumed here.  [z_deflate] is deflate(3)
   with Gzip_InitDeflate and Gzip_AddAa applied to [z_init]: state, input and
   room in the output give new state, number of bytes taken, output and return
   code.  [z_gzip] is what the loop in Gzip_Vsb collects. *)
Record zlib := mkZ {
  zstate : Type;
  z_init : zstate;
  z_deflate : zstate -> bytes -> N -> zflush -> zstate * N * bytes * zrc;
  z_gzip : N -> bytes -> bytes;
  z_sha : bytes -> bytes;
  z_comb : N -> N -> N -> N }.

(* struct aardwarc: cache_first_non_silo, cache_first_space_silo *)
Definition cachev := (N * N)%type.

(* struct wsilo, wsilo.c:53-76.  [w_buf] is buf_ptr != NULL.  hd is a pointer to
   a header of the caller, who passes it where it is needed. *)
Record wsilo := mkW {
  w_no : N; w_idx : N; w_len : N; w_start : N; w_hlen : N; w_buf : bool; w_wid : bytes }.

Section Store.
Variable C : conf.
Variable L : zlib.

Definition IDX_F_WARCINFO : N := 2.
Definition IDX_F_RESOURCE : N := 4.
Definition IDX_F_METADATA : N := 8.
Definition IDX_F_SEGMENTED : N := 16.
Definition IDX_F_FIRSTSEG : N := 32.
Definition IDX_F_LASTSEG : N := 64.
Definition BUFLEN : N := 1048576.

(* Header_Serialize with level >= 0, header.c:239-275 *)
Definition hser (level : N) (hd : header) : prog bytes :=
  lift (Gzip_Vsb (z_gzip L) level (Header_Serialize (c_prefix C) hd)).

Definition hset (hd : header) (name : string) (val : bytes) : prog header :=
  lift (Header_Set hd (str name) val).

(* Wsilo_GetSpace, wsilo.c:275-287 *)
Definition Wsilo_GetSpace (sl : wsilo) : Z :=
  let free := (Z.of_N (c_max C) - Z.of_N (w_len sl))%Z in
  let bl := if w_buf sl then Z.of_N BUFLEN else 0%Z in
  if (bl <? free)%Z then bl else free.

(* Wsilo_Store, wsilo.c:289-303.  write(2) writes everything (a short write
   aborts at 300, which is a crash in the middle of the call). *)
Definition Wsilo_Store (sl : wsilo) (d : bytes) : prog wsilo :=
  let! _ := assert (0 <? len d) in
  let! _ := assert (len d <=? (if w_buf sl then BUFLEN else 0)) in
  let! _ := sys (CWrite (w_no sl) d) in
  Ret (mkW (w_no sl) (w_idx sl) (w_len sl + len d) (w_start sl) (w_hlen sl) (w_buf sl) (w_wid sl)).

(* warcinfo.c:128-131, 142-145, 147-151 *)
Definition put (sl : wsilo) (d : bytes) : prog wsilo :=
  let! _ := assert (0 <? len d) in
  let! _ := assert (Z.of_N (len d) <=? Wsilo_GetSpace sl)%Z in
  Wsilo_Store sl d.

(* warcinfo.c:97-107 *)
Definition warcinfo_body (fn : bytes) : bytes :=
  str "title: " ++ fn ++ crlf ++ c_wbody C ++
  str "format: WARC file version 1.1" ++ crlf ++
  str "conformsTo: http://iipc.github.io/warc-specifications/specifications/warc-format/warc-1.1/" ++ crlf ++
  str "software: https://github.com/bsdphk/AardWARC (" ++ c_gitrev C ++ str ")" ++ crlf.

(* Warcinfo_New, warcinfo.c:73-157 *)
Definition Warcinfo_New (sl : wsilo) (silono : N) : prog wsilo :=
  let fn := c_base C silono in
  let! h := hset (Header_New (c_idsize C)) "WARC-Filename" fn in
  let body := warcinfo_body fn in
  let! date := sys CTime in
  let! h := hset h "WARC-Date" date in
  let! h := hset h "WARC-Type" (str "warcinfo") in
  let! h := hset h "Content-Type" (str "application/warc-fields") in
  let! h := hset h "Content-Length" (dec (len body)) in
  let p := z_sha L body in
  let! h := hset h "WARC-Block-Digest" (str "sha256:" ++ p) in
  let! h := lift (Ident_Set (z_sha L) (c_prefix C) (c_idsize C) h p None) in
  let! bgz := lift (Gzip_Vsb (z_gzip L) 0 body) in
  let! hgz := hser 0 h in
  let! sl := put sl hgz in
  let! sl := put sl bgz in
  let! sl := put sl crnlcrnl in
  Ret (mkW (w_no sl) (w_idx sl) (w_len sl) (w_start sl) (w_hlen sl) (w_buf sl) (Header_Get_Id h)).

(* Wsilo_New, wsilo.c:115-192.  Directories are taken to exist (silo_mkparentdir,
   82-111, returns 0) and open(2) of the hold fails only with EEXIST. *)
Definition Wsilo_New (silono : N) : prog (option wsilo) :=
  let! st := sys (CStat silono) in
  match st with
  | Some _ => Ret None
  | None =>
      let! h := sys (CStatHold silono) in
      if h then Ret None else
      let! ok := sys (CCreat silono) in
      if negb ok then Ret None else
      let! sl := Warcinfo_New (mkW silono 0 0 0 0 true []) silono in
      Ret (Some sl)
  end.

(* AardWARC_ReadCache, aardwarc.c:164-186 *)
Definition ReadCache (aa : cachev) : prog cachev :=
  let! c := sys CReadCache in
  Ret (match c with Some p => p | None => aa end).

(* AardWARC_WriteCache, aardwarc.c:188-207 *)
Definition WriteCache (aa : cachev) : prog unit := sys (CWriteCache (fst aa) (snd aa)).

(* Wsilo_Next, wsilo.c:194-210.  The last silo number, 2^32 - 1, is taken as the
   end of the model. *)
Fixpoint next_loop (fuel : nat) (silono : N) : prog wsilo :=
  match fuel with
  | O => Die DFuel
  | S fu =>
      if 2 ^ 32 - 1 <=? silono then Die DFuel else
      let! sl := Wsilo_New silono in
      match sl with
      | Some sl => Ret sl
      | None => next_loop fu (silono + 1)
      end
  end.
Definition Wsilo_Next (aa : cachev) : prog (cachev * wsilo) :=
  let! aa := ReadCache aa in
  let! sl := next_loop (c_fuel C) (fst aa) in
  Ret (aa, sl).

(* wsilo_delete, wsilo.c:213-225 *)
Definition wsilo_delete (sl : wsilo) : prog unit := sys (CUnlink (w_no sl)).

(* Wsilo_Header, wsilo.c:229-271 *)
Definition Wsilo_Header (sl : wsilo) (hd : header) (pad : N) : prog wsilo :=
  let pad := if 0 <? pad then pad + Header_Len (str "z") (str "_") else pad in
  let! _ := assert (w_start sl =? 0) in
  let start := w_len sl in
  let typ s := match Header_Get hd (str "WARC-Type") with
               | Some t => bytes_eqb t (str s) | None => false end in
  let idx := if typ "metadata" then N.lor (w_idx sl) IDX_F_METADATA else w_idx sl in
  let idx := if typ "resource" then N.lor idx IDX_F_RESOURCE else idx in
  let! v2 := hser 0 hd in
  let! _ := assert (0 <? len v2) in
  let hlen := len v2 + pad in
  let sl := mkW (w_no sl) idx (w_len sl) start hlen (w_buf sl) (w_wid sl) in
  let! _ := assert (Z.of_N hlen <? Wsilo_GetSpace sl)%Z in
  let! sl := Wsilo_Store sl v2 in
  let! _ := assert (Z.of_N pad <? Wsilo_GetSpace sl)%Z in
  Wsilo_Store sl (repeat 95 (N.to_nat pad)).

(* Wsilo_Finish, wsilo.c:307-323, with Gzip_WriteAa, gzip.c:106-121 *)
Definition Wsilo_Finish (sl : wsilo) : prog wsilo :=
  let! _ := assert (w_buf sl) in
  let pos := w_start sl + w_hlen sl in
  let l := (Z.of_N (w_len sl) - (Z.of_N pos + 24))%Z in
  let! _ := assert (0 <? l)%Z in
  let! buf := sys (CRead (w_no sl) pos 16) in
  let! _ := assert (len buf =? 16) in
  let! g := lift (Gzip_GoodAa buf) in
  let! _ := assert g in
  let! _ := sys (CPwrite (w_no sl) (pos + 16) (le_enc 8 (Z.to_N l))) in
  Ret (mkW (w_no sl) (w_idx sl) (w_len sl) (w_start sl) (w_hlen sl) false (w_wid sl)).

(* IDX_Insert as called from wsilo.c *)
Definition insert (id : bytes) (flags silo off : N) (cont : option bytes) : prog unit :=
  sys (CIdxIns (ideal id flags silo off cont)).

Inductive attempt := AppDone | AppNo | AppStop.

(* silo_attempt_append, wsilo.c:327-460, with v2 the compressed header.  Every
   silo is a regular file, mmap(2) does not fail and writev(2) writes everything
   (a short write aborts at 435, which is a crash in the middle of the call).
   bx is computed in uint32_t. *)
Definition silo_attempt_append (aa : cachev) (sl : wsilo) (silono : N) (v2 id : bytes)
  : prog (cachev * attempt) :=
  let pos := w_start sl + w_hlen sl in
  let need := len v2 + (w_len sl - pos) in
  let! st := sys (CStat silono) in
  match st with
  | None => Ret (aa, AppNo)
  | Some (size, w) =>
      let! aa :=
        if silono =? fst aa then
          let aa := ((fst aa + 1) mod 2 ^ 32, snd aa) in
          let! _ := WriteCache aa in Ret aa
        else Ret aa in
      if negb w then Ret (aa, AppStop) else
      let ax := (Z.of_N (c_max C) - Z.of_N size)%Z in
      let bx := ((Z.of_N (fst aa) - Z.of_N (snd aa)) mod 2 ^ 32)%Z in
      let! aa :=
        if (silono =? snd aa) && (ax <? bx)%Z then
          let aa := (fst aa, (snd aa + 1) mod 2 ^ 32) in
          let! _ := WriteCache aa in Ret aa
        else Ret aa in
      if c_max C <? size + need then Ret (aa, AppNo) else
      let! h := sys (CCreat silono) in
      if negb h then Ret (aa, AppNo) else
      let! o := sys (COpen silono) in
      if negb o then let! _ := sys (CUnlink silono) in Ret (aa, AppNo) else
      let! st := sys (CStat silono) in
      match st with
      | None => let! _ := sys (CUnlink silono) in Ret (aa, AppNo)
      | Some (size, w) =>
          if negb w || (c_max C <? size + need)
          then let! _ := sys (CUnlink silono) in Ret (aa, AppNo) else
          let! p := sys (CRead (w_no sl) pos (w_len sl - pos)) in
          let wr := v2 ++ p in
          let! before := sys (CSeekEnd silono) in
          let! _ := sys (CAppend silono wr) in
          let! after := sys (CSeekEnd silono) in
          let! _ := assert (len wr =? after - before) in
          let! _ := assert (len wr <? after) in
          let! _ := insert id (w_idx sl) silono (after - len wr) None in
          let! _ := sys (CUnlink silono) in
          Ret (aa, AppDone)
      end
  end.

(* Wsilo_Install, wsilo.c:464-483 *)
Definition Wsilo_Install (aa : cachev) (sl : wsilo) : prog cachev :=
  let! _ := insert (w_wid sl) IDX_F_WARCINFO (w_no sl) 0 None in
  let! ok := sys (CLink (w_no sl)) in
  let! _ := assert ok in
  let! aa :=
    if w_no sl =? fst aa then
      let aa := ((fst aa + 1) mod 2 ^ 32, snd aa) in
      let! _ := WriteCache aa in Ret aa
    else Ret aa in
  let! _ := wsilo_delete sl in
  Ret aa.

(* The loop at wsilo.c:510-519: n silos from sn *)
Fixpoint append_loop (n : nat) (aa : cachev) (sl : wsilo) (sn : N) (v2 id : bytes)
  : prog (cachev * bool) :=
  match n with
  | O => Ret (aa, false)
  | S n' =>
      let! (aa, r) := silo_attempt_append aa sl sn v2 id in
      match r with
      | AppDone => Ret (aa, true)
      | AppStop => Ret (aa, false)
      | AppNo => append_loop n' aa sl (sn + 1) v2 id
      end
  end.

(* Wsilo_Commit, wsilo.c:485-566, with the header sl->hd points to *)
Definition Wsilo_Commit (aa : cachev) (sl : wsilo) (hd : header) (segd : bool)
    (id : bytes) (rid : option bytes) : prog cachev :=
  let! _ := assert (negb (w_buf sl)) in
  let! (aa, done) :=
    if negb segd && (0 <? w_no sl) then
      let! _ := assert (match rid with None => true | _ => false end) in
      let! v := hser 9 hd in
      append_loop (N.to_nat (w_no sl - snd aa)) aa sl (snd aa) v id
    else Ret (aa, false) in
  if done : bool then let! _ := wsilo_delete sl in Ret aa else
  let! v := hser 0 hd in
  let i := (Z.of_N (w_hlen sl) - Z.of_N (len v))%Z in
  let! (hd, v) :=
    if (0 <? i)%Z then
      let! _ := assert (5 <=? i)%Z in
      let! hd := hset hd "z" (repeat 95 (Z.to_nat (i - 5))) in
      let! v := hser 0 hd in
      Ret (hd, v)
    else Ret (hd, v) in
  let! _ := assert (len v =? w_hlen sl) in
  let! _ := sys (CPwrite (w_no sl) (w_start sl) v) in
  let! idx :=
    if segd then
      match Header_Get hd (str "WARC-Segment-Number") with
      | None => Die DAbort
      | Some t =>
          let x := N.lor (w_idx sl) IDX_F_SEGMENTED in
          let x := if bytes_eqb t (str "1") then N.lor x IDX_F_FIRSTSEG else x in
          Ret (match rid with None => N.lor x IDX_F_LASTSEG | Some _ => x end)
      end
    else Ret (w_idx sl) in
  let! _ := insert id idx (w_no sl) (w_start sl) rid in
  Wsilo_Install aa sl.

(* ------------------------------------------------------------------ *)
(* rsilo.c                                                              *)

(* The text up to the first NUL *)
Fixpoint cstr (s : bytes) : bytes :=
  match s with [] => [] | c :: r => if c =? 0 then [] else c :: cstr r end.

(* Rsilo_Open and Rsilo_ReadHeader, rsilo.c:105-126, 161-200: the header, the
   length of the body and where it starts.  inflate(3) is the decoder of
   InflateSpec; the page size is 4096. *)
Definition Rsilo_ReadHeader (s : bytes) (off : N) : res (option (header * Z * N)) :=
  let page := file_read s off 4096 in
  match page with
  | [] => Ok None
  | _ =>
      match gunzip page with
      | None => Abort
      | Some (t, rest) =>
          let* _ := guard (len t <=? 4096) in
          let* bl := Gzip_ReadAa rest in
          let* hd := Header_Parse (c_prefix C) (cstr t) in
          Ok (Some (hd, bl, off + (len page - len rest)))
      end
  end.

(* Rsilo_ReadChunk, rsilo.c:259-304: everything given to func *)
Definition Rsilo_ReadChunk (s : bytes) (off : N) : res bytes :=
  match gunzip (skipn (N.to_nat off) s) with
  | None => Abort
  | Some (d, _) => Ok d
  end.

(* Rsilo_ReadGZChunk, rsilo.c:227-255: the pieces given to func, and whether it
   returns something else than zero.  The length is returned as an int. *)
Definition Rsilo_ReadGZChunk (s : bytes) (off : N) (bl : Z) : list bytes * bool :=
  let d := file_read s off (Z.to_N bl) in
  (chunks (N.to_nat 131072) d, (len d =? Z.to_N bl) && negb (len d mod 2 ^ 32 =? 0)).

(* ------------------------------------------------------------------ *)
(* getjob.c                                                             *)

(* struct getjobseg, getjob.c:42-54 *)
Record getjobseg := mkG {
  g_silo : N; g_boff : N; g_blen : Z; g_hdr : header; g_flag : N; g_cont : bytes; g_segno : N }.

Definition flag (f b : N) : bool := negb (N.land f b =? 0).

(* getjob_iter, getjob.c:70-153.  [segs] is gj->segs, last first. *)
Inductive iter_res := ItNext | ItErr | ItGot (g : getjobseg).
Definition getjob_iter (id : bytes) (segs : list getjobseg) (e : ixent) : prog iter_res :=
  let! f := sys (CReadSilo (e_silo e)) in
  match f with
  | None => Die DAbort
  | Some s =>
      let! h := lift (Rsilo_ReadHeader s (e_off e)) in
      match h with
      | None => Die DAbort
      | Some (hd, bl, boff) =>
          let p := Header_Get_Id hd in
          if flag (e_flags e) IDX_F_WARCINFO && caseeq p id then Ret ItErr else
          let got n := Ret (ItGot (mkG (e_silo e) boff bl hd (e_flags e) (e_cont e) n)) in
          match segs with
          | [] =>
              if negb (caseeq p id) then Ret ItNext
              else if flag (e_flags e) IDX_F_SEGMENTED && negb (flag (e_flags e) IDX_F_FIRSTSEG)
              then Ret ItErr
              else got 1
          | last :: _ =>
              match Header_Get hd (str "WARC-Segment-Origin-ID") with
              | None => Die DAbort
              | Some o =>
                  let! _ := assert (nth 0 o 0 =? 60) in
                  let o := skipn 1 o in
                  let pl := List.length (c_prefix C) in
                  let! _ := assert (bytes_eqb (firstn pl o) (c_prefix C)) in
                  let o := skipn pl o in
                  let! _ := assert (nth (N.to_nat (c_idsize C)) o 0 =? 62) in
                  let! _ := assert (len o =? c_idsize C + 1) in
                  if negb (ncaseeq (N.to_nat (c_idsize C)) o id) then Ret ItNext else
                  let! im := lift (Header_Get_Number hd (str "WARC-Segment-Number")) in
                  let! _ := assert (0 <=? im)%Z in
                  let segno := Z.to_N (im mod 2 ^ 32) in
                  if negb (segno =? (g_segno last + 1) mod 2 ^ 32) then Ret ItErr
                  else got segno
              end
          end
      end
  end.

(* IDX_Iter with that callback: stops at the first which does not return 0 *)
Fixpoint iter_loop (id : bytes) (segs : list getjobseg) (es : list ixent) : prog iter_res :=
  match es with
  | [] => Ret ItNext
  | e :: r =>
      let! x := getjob_iter id segs e in
      match x with ItNext => iter_loop id segs r | _ => Ret x end
  end.

(* The loop at getjob.c:202-225; None is a NULL return *)
Fixpoint getjob_loop (fuel : nat) (id : bytes) (segs : list getjobseg) (nid : bytes)
  : prog (option (list getjobseg)) :=
  match fuel with
  | O => Die DFuel
  | S fu =>
      let! es := sys (CIdxIter nid) in
      let! x := iter_loop id segs es in
      match x with
      | ItNext | ItErr => Ret None
      | ItGot g =>
          let! _ := assert (negb (flag (g_flag g) IDX_F_WARCINFO)) in
          if negb (flag (g_flag g) IDX_F_SEGMENTED) then
            let! _ := assert (negb (flag (g_flag g) IDX_F_FIRSTSEG)) in
            let! _ := assert (negb (flag (g_flag g) IDX_F_LASTSEG)) in
            let! _ := assert (bytes_eqb (g_cont g) (str "00000000")) in
            let! _ := assert (match segs with [] => true | _ => false end) in
            Ret (Some [g])
          else if flag (g_flag g) IDX_F_LASTSEG then Ret (Some (rev (g :: segs)))
          else getjob_loop fu id (g :: segs) (g_cont g)
      end
  end.

(* GetJob_New, getjob.c:180-227: the segments in order *)
Definition GetJob_New (id : bytes) : prog (option (list getjobseg)) :=
  match IDX_Valid_Id (c_prefix C) (c_idsize C) id with
  | IdOk nid => getjob_loop (c_fuel C) nid [] nid
  | _ => Ret None
  end.

(* GetJob_Iter, getjob.c:243-265, with gzip == 0 and a callback which returns 0 *)
Fixpoint GetJob_Iter (segs : list getjobseg) : prog bytes :=
  match segs with
  | [] => Ret []
  | g :: r =>
      let! f := sys (CReadSilo (g_silo g)) in
      match f with
      | None => Die DAbort
      | Some s =>
          let! d := lift (Rsilo_ReadChunk s (g_boff g)) in
          let! ds := GetJob_Iter r in
          Ret (d ++ ds)
      end
  end.

(* The same with gzip != 0: the pieces read, up to the first segment for which
   Rsilo_ReadGZChunk returns zero *)
Fixpoint gz_pieces (segs : list getjobseg) : prog (list bytes) :=
  match segs with
  | [] => Ret []
  | g :: r =>
      let! f := sys (CReadSilo (g_silo g)) in
      match f with
      | None => Die DAbort
      | Some s =>
          let '(ps, go) := Rsilo_ReadGZChunk s (g_boff g) (g_blen g) in
          if go then let! qs := gz_pieces r in Ret (ps ++ qs) else Ret ps
      end
  end.
Definition GetJob_Iter_gz (segs : list getjobseg) : prog bytes :=
  let! ps := gz_pieces segs in
  match segs with
  | [_] => Ret (List.concat ps)
  | _ => lift (stitch_all (z_comb L) ps)
  end.

(* main_get.c:151-154, 161-185: what is written to the output, with the checks *)
Definition get_body (zip : bool) (segs : list getjobseg) : prog bytes :=
  if zip then GetJob_Iter_gz segs else
  let hdr1 := match segs with g :: _ => g_hdr g | [] => mkH [] [] end in
  let hdr9 := match rev segs with g :: _ => g_hdr g | [] => mkH [] [] end in
  let! d := GetJob_Iter segs in
  let dig := z_sha L d in
  match (match Header_Get hdr1 (str "WARC-Payload-Digest") with
         | Some p => Some p
         | None => Header_Get hdr1 (str "WARC-Block-Digest")
         end) with
  | None => Die DAbort
  | Some p =>
      let! _ := assert (bytes_eqb (firstn 7 p) (str "sha256:")) in
      let n := N.to_nat (c_idsize C) in
      let! _ := assert (bytes_eqb (firstn n (skipn 7 p)) (firstn n dig)) in
      match (match Header_Get hdr9 (str "WARC-Segment-Total-Length") with
             | Some p => Some p
             | None => Header_Get hdr9 (str "Content-Length")
             end) with
      | None => Die DAbort
      | Some p =>
          let! _ := assert (bytes_eqb p (dec (len d))) in
          Ret d
      end
  end.

(* main_get, main_get.c:140-190: what is written to the output.  None is
   exit(1).  Printing the headers is modelled in CgiModel.v. *)
Definition main_get (zip : bool) (arg : bytes) : prog (option bytes) :=
  let! gj := GetJob_New arg in
  match gj with
  | None => Ret None
  | Some segs => let! d := get_body zip segs in Ret (Some d)
  end.

(* ------------------------------------------------------------------ *)
(* segjob.c                                                             *)

(* struct segment, segjob.c:50-59 *)
Record segment := mkS { sg_no : N; sg_hdr : header; sg_silo : wsilo; sg_size : N }.

(* struct segjob, segjob.c:61-79.  The two SHA256 contexts are the bytes fed to
   them; sj_done are the finished segments in order; gz is the deflate state and
   the input not yet taken. *)
Record segjob := mkJ {
  sj_hdr : header; sj_ident : option bytes; sj_nseg : N;
  sj_done : list segment; sj_cur : option segment;
  sj_pay : bytes; sj_seg : bytes; sj_size : N;
  sj_z : zstate L; sj_in : bytes; sj_flag : zflush }.

(* SegJob_New, segjob.c:185-211 *)
Definition SegJob_New (hdr : header) (ident : option bytes) : prog segjob :=
  let has n := match Header_Get hdr (str n) with Some _ => true | None => false end in
  let! _ := assert (has "Content-Type") in
  let! _ := assert (has "WARC-Type") in
  let! _ := assert (has "WARC-Date") in
  let! _ := assert (negb (has "WARC-Segment-Number")) in
  let! _ := assert (negb (has "WARC-Payload-Digest")) in
  let! _ := assert (negb (has "WARC-Segment-Origin-ID")) in
  let! _ := assert (negb (has "WARC-Segment-Total-Length")) in
  let! _ := assert (match ident with
                    | None => true
                    | Some i => match IDX_Valid_Id (c_prefix C) (c_idsize C) i with
                                | IdOk _ => true | _ => false end
                    end) in
  Ret (mkJ hdr ident 0 [] None [] [] 0 (z_init L) [] ZNone).

(* segjob_newseg, segjob.c:98-161.  nseg is an int; 2^31 segments are taken as
   the end of the model. *)
Definition segjob_newseg (aa : cachev) (sj : segjob) : prog (cachev * segjob) :=
  if 2 ^ 31 - 1 <=? sj_nseg sj then Die DFuel else
  let segno := sj_nseg sj + 1 in
  let digest := z_sha L [] in
  let! h := hset (Header_Clone (sj_hdr sj)) "WARC-Block-Digest" (str "sha256:" ++ digest) in
  let! h := hset h "Content-Length" (str "00" ++ dec (c_max C)) in
  let! (h, pad) :=
    if segno =? 1 then
      Ret (h, Header_Len (str "WARC-Segment-Number") (str "1") +
              Header_Len (str "WARC-Payload-Digest") (str "sha256:" ++ digest))
    else
      let! h := hset h "WARC-Segment-Number" (dec segno) in
      let! h := hset h "WARC-Type" (str "continuation") in
      let! h := lift (Header_Set_Ref (c_prefix C) (c_idsize C) h (str "WARC-Segment-Origin-ID") digest) in
      Ret (h, Header_Len (str "WARC-Segment-Total-Length") (dec (sj_size sj + c_max C))) in
  let! (aa, sl) := Wsilo_Next aa in
  let! sl := Wsilo_Header sl h pad in
  Ret (aa, mkJ (sj_hdr sj) (sj_ident sj) segno (sj_done sj) (Some (mkS segno h sl 0))
               (sj_pay sj) [] (sj_size sj) (z_init L) [] ZNone).

(* segjob_finishseg, segjob.c:163-183.  deflateEnd(3) returns Z_OK. *)
Definition segjob_finishseg (sj : segjob) (sg : segment) : prog segjob :=
  let dig := z_sha L (sj_seg sj) in
  let! h := hset (sg_hdr sg) "WARC-Block-Digest" (str "sha256:" ++ dig) in
  let! h := hset h "Content-Length" (dec (sg_size sg)) in
  let! h := lift (Ident_Set (z_sha L) (c_prefix C) (c_idsize C) h dig
                    (if sg_no sg =? 1 then sj_ident sj else None)) in
  let! sl := Wsilo_Finish (sg_silo sg) in
  Ret (mkJ (sj_hdr sj) (sj_ident sj) (sj_nseg sj)
           (sj_done sj ++ [mkS (sg_no sg) h sl (sg_size sg)]) None
           (sj_pay sj) (sj_seg sj) (sj_size sj) (sj_z sj) (sj_in sj) (sj_flag sj)).

(* segjob_setup_outbuf, segjob.c:213-223: obuflen.  It is a size_t; going below
   zero at 220 makes deflate(3) write past the buffer. *)
Definition segjob_setup_outbuf (sg : segment) : prog N :=
  let sp := Wsilo_GetSpace (sg_silo sg) in
  let! _ := assert (negb (sp =? 0)%Z) in
  if (sp <? 24)%Z then Die DUB else Ret (Z.to_N (sp - 24)).

(* segjob_deflate, segjob.c:225-238 *)
Definition segjob_deflate (sj : segjob) (sg : segment) (obuflen : N) (fl : zflush)
  : prog (segjob * segment) :=
  let '(z, n, out, rc) := z_deflate L (sj_z sj) (sj_in sj) obuflen fl in
  let! _ := assert (match rc, fl with
                    | ZOk, _ => true | ZEnd, ZFinish => true | _, _ => false end) in
  let! sl := if 0 <? len out then Wsilo_Store (sg_silo sg) out else Ret (sg_silo sg) in
  let sg := mkS (sg_no sg) (sg_hdr sg) sl (sg_size sg) in
  Ret (mkJ (sj_hdr sj) (sj_ident sj) (sj_nseg sj) (sj_done sj) (Some sg)
           (sj_pay sj) (sj_seg sj) (sj_size sj) z (skipn (N.to_nat n) (sj_in sj)) fl, sg).

(* The loop of SegJob_Feed, segjob.c:250-322 *)
Fixpoint feed_loop (fuel : nat) (aa : cachev) (sj : segjob) (ip : bytes) : prog (cachev * segjob) :=
  match fuel with
  | O => Die DFuel
  | S fu =>
      let! (aa, sj) := match sj_cur sj with
                       | None => segjob_newseg aa sj
                       | Some _ => Ret (aa, sj)
                       end in
      match sj_cur sj with
      | None => Die DAbort
      | Some sg =>
          let! ob := segjob_setup_outbuf sg in
          let more (aa : cachev) (sj : segjob) (ip : bytes) :=
            match sj_in sj, ip with
            | [], [] => Ret (aa, sj)
            | _, _ => feed_loop fu aa sj ip
            end in
          if (ob <? 52) || (len ip =? 0) then
            let! _ := assert (len (sj_in sj) =? 0) in
            let! (sj, sg) := segjob_deflate sj sg ob ZSync in
            let! ob := segjob_setup_outbuf sg in
            let! (sj, sg) := segjob_deflate sj sg ob ZFinish in
            let! _ := assert (24 <? Wsilo_GetSpace (sg_silo sg))%Z in
            let! sl := Wsilo_Store (sg_silo sg) crnlcrnl in
            let! sj := segjob_finishseg sj (mkS (sg_no sg) (sg_hdr sg) sl (sg_size sg)) in
            more aa sj ip
          else
            let! (sj, sg, ip) :=
              match sj_in sj with
              | [] =>
                  let n := N.min (ob / 2) (len ip) in
                  let! _ := assert (0 <? n) in
                  let d := firstn (N.to_nat n) ip in
                  let sg := mkS (sg_no sg) (sg_hdr sg) (sg_silo sg) (sg_size sg + n) in
                  Ret (mkJ (sj_hdr sj) (sj_ident sj) (sj_nseg sj) (sj_done sj) (Some sg)
                           (sj_pay sj ++ d) (sj_seg sj ++ d) (sj_size sj + n) (sj_z sj) d (sj_flag sj),
                       sg, skipn (N.to_nat n) ip)
              | _ => Ret (sj, sg, ip)
              end in
            let fl := if ob <? 131072 then ZPartial else sj_flag sj in
            let! (sj, sg) := segjob_deflate sj sg ob fl in
            more aa sj ip
      end
  end.

Definition SegJob_Feed (aa : cachev) (sj : segjob) (ip : bytes) : prog (cachev * segjob) :=
  feed_loop (c_fuel C) aa sj ip.

(* segjob_destroy, segjob.c:81-96 *)
Fixpoint segjob_destroy (sgs : list segment) : prog unit :=
  match sgs with
  | [] => Ret tt
  | sg :: r => let! _ := wsilo_delete (sg_silo sg) in segjob_destroy r
  end.

(* The loop at segjob.c:369-385 *)
Fixpoint commit_loop (aa : cachev) (fid : bytes) (size : N) (sgs : list segment) : prog cachev :=
  match sgs with
  | [] => Ret aa
  | sg :: r =>
      let! h := if sg_no sg =? 1 then hset (sg_hdr sg) "WARC-Segment-Number" (str "1")
                else lift (Header_Set_Ref (c_prefix C) (c_idsize C) (sg_hdr sg)
                             (str "WARC-Segment-Origin-ID") fid) in
      let! (h, rid) :=
        match r with
        | [] => let! h := hset h "WARC-Segment-Total-Length" (dec size) in Ret (h, None)
        | n :: _ => Ret (h, Some (Header_Get_Id (sg_hdr n)))
        end in
      let! aa := Wsilo_Commit aa (sg_silo sg) h true (Header_Get_Id h) rid in
      commit_loop aa fid size r
  end.

(* SegJob_Commit, segjob.c:325-353, up to the point where the identifier is known:
   the first segment, and the others *)
Definition segjob_ident (aa : cachev) (sj : segjob) : prog (cachev * segjob * segment * list segment) :=
  let! (aa, sj) := SegJob_Feed aa sj [] in
  let! _ := assert (negb (sj_size sj =? 0)) in
  match sj_done sj with
  | [] => Die DAbort
  | sg :: r =>
      let! h :=
        if 1 <? sj_nseg sj then
          let id := z_sha L (sj_pay sj) in
          let! h := hset (sg_hdr sg) "WARC-Payload-Digest" (str "sha256:" ++ id) in
          lift (Ident_Set (z_sha L) (c_prefix C) (c_idsize C) h id (sj_ident sj))
        else Ret (sg_hdr sg) in
      Ret (aa, sj, mkS (sg_no sg) h (sg_silo sg) (sg_size sg), r)
  end.

(* SegJob_Commit, segjob.c:325-387: the identifier returned *)
Definition SegJob_Commit (aa : cachev) (sj : segjob) : prog bytes :=
  let! (aa, sj, sg, r) := segjob_ident aa sj in
  let fid := Header_Get_Id (sg_hdr sg) in
  let! id := lift (Digest2Ident (c_prefix C) (c_idsize C) fid) in
  let! gj := GetJob_New fid in
  match gj with
  | Some _ => let! _ := segjob_destroy (sg :: r) in Ret id
  | None =>
      if sj_nseg sj =? 1 then
        let! _ := Wsilo_Commit aa (sg_silo sg) (sg_hdr sg) false fid None in Ret id
      else
        let! _ := commit_loop aa fid (sj_size sj) (sg :: r) in Ret id
  end.

(* ------------------------------------------------------------------ *)
(* main_store.c                                                         *)

(* A store command after option parsing (main_store.c:112-174): metadata or
   resource, mime type (accepted by mime_type(), 57-75), -r and -i arguments,
   the successive non-empty results of read(2). *)
Record request := mkReq {
  r_meta : bool; r_mime : bytes; r_ref : bytes; r_ident : option bytes; r_data : list bytes }.

Fixpoint feed_all (aa : cachev) (sj : segjob) (ds : list bytes) : prog (cachev * segjob) :=
  match ds with
  | [] => Ret (aa, sj)
  | d :: r => let! (aa, sj) := SegJob_Feed aa sj d in feed_all aa sj r
  end.

Definition valid_id (id : bytes) : bool :=
  match IDX_Valid_Id (c_prefix C) (c_idsize C) id with IdOk _ => true | _ => false end.

(* main_store, main_store.c:163-269, up to SegJob_Commit *)
Definition store_feed (r : request) : prog (cachev * segjob) :=
  let! ref :=
    if r_meta r then
      let! _ := match r_ident r with
                | Some i => if valid_id i then Ret tt else Die DExit
                | None => Ret tt
                end in
      if negb (valid_id (r_ref r)) then Die DExit
      else if len (r_ref r) =? c_idsize C
      then let! x := lift (Digest2Ident (c_prefix C) (c_idsize C) (r_ref r)) in Ret (Some x)
      else Ret (Some (r_ref r))
    else match r_ident r with Some _ => Die DExit | None => Ret None end in
  match r_data r with
  | [] => Die DExit
  | _ =>
      let! date := sys CTime in
      let! h := hset (Header_New (c_idsize C)) "WARC-Date" date in
      let! h := hset h "Content-Type" (r_mime r) in
      let! h := hset h "WARC-Type" (if r_meta r then str "metadata" else str "resource") in
      let! h :=
        match ref with
        | None => Ret h
        | Some ref =>
            let! gj := GetJob_New ref in
            match gj with
            | None => Die DExit
            | Some _ => hset h "WARC-Refers-To" ([60] ++ ref ++ [62])
            end
        end in
      let! sj := SegJob_New h (r_ident r) in
      feed_all (0, 0) sj (r_data r)
  end.

(* main_store, main_store.c:163-278; the identifier it prints *)
Definition main_store (r : request) : prog bytes :=
  let! (aa, sj) := store_feed r in
  SegJob_Commit aa sj.

(* main_mksilo, main_mksilo.c:78-88, of the number read by strtoul(3).  The caches of
   struct aardwarc are still 0. *)
Definition main_mksilo (silono : N) : prog unit :=
  let! sl := Wsilo_New silono in
  match sl with
  | None => Die DExit
  | Some sl => let! _ := Wsilo_Install (0, 0) sl in Ret tt
  end.

End Store.
