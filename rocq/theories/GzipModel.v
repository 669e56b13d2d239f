(* Model of /repo/gzip.c: the "Aa" length field and stitching of gzip members.
   deflate(3) is an argument; see ZlibSpec.v for what is expected of it. *)
From Verif Require Import Base IndexModel.
Open Scope N_scope.

(* gzip_head, gzip.c:51-62 *)
Definition gzip_head : bytes := [31; 139; 8; 4; 0; 0; 0; 0; 2; 3; 12; 0; 65; 97; 8; 0].

(* Gzip_GoodAa, gzip.c:64-77.  The list is the buffer of l bytes. *)
Definition Gzip_GoodAa (p : bytes) : res bool :=
  let* _ := guard (16 <=? len p) in
  let buf := firstn 16 p in
  if negb (nth 8 buf 0 =? 2) && negb (nth 8 buf 0 =? 4) then Ok false
  else Ok (bytes_eqb (set_nth 8 2 buf) gzip_head).

(* pwrite(2)/lseek(2)+write(2) into a file; a gap is filled with zeros *)
Definition file_write (f : bytes) (off : N) (d : bytes) : bytes :=
  let o := N.to_nat off in
  firstn o (f ++ repeat 0 (o - List.length f)) ++ d ++ skipn (o + List.length d) f.

(* lseek(2)+read(2) *)
Definition file_read (f : bytes) (off k : N) : bytes :=
  firstn (N.to_nat k) (skipn (N.to_nat off) f).

(* Gzip_WriteAa, gzip.c:106-121, with the file position at pos: the new file *)
Definition Gzip_WriteAa (f : bytes) (pos : N) (l : Z) : res bytes :=
  let* _ := guard (0 <? l)%Z in
  let buf := file_read f pos 16 in
  let* _ := guard (len buf =? 16) in
  let* g := Gzip_GoodAa buf in
  let* _ := guard g in
  Ok (file_write f (pos + 16) (le_enc 8 (Z.to_N l))).

(* Gzip_ReadAa, gzip.c:127-137.  "sizeof sizeof gzip_head + 8" in the
   xxxassert at 133 is 16, not 24; reading past the buffer is UB. *)
Definition Gzip_ReadAa (p : bytes) : res Z :=
  let* g := Gzip_GoodAa p in
  let* _ := guard g in
  let* _ := guard (16 <=? len p) in
  if len p <? 24 then UB else
  let l := to_i64 (le_dec (firstn 8 (skipn 16 p))) in
  let* _ := guard (0 <? l)%Z in
  Ok l.

(* Gzip_crnlcrnl, gzip.c:141-145 *)
Definition crnlcrnl : bytes :=
  [31; 139; 8; 0; 32; 1; 25; 102; 2; 3; 227; 229; 226; 229; 2; 0; 68; 21; 194; 139; 4; 0; 0; 0].

Section Vsb.
(* What the loop at gzip.c:181-186 has collected: deflate(3) at that level with
   the extra field of gzip.c:83-100. *)
Variable gzip : N -> bytes -> bytes.

(* Gzip_Vsb, gzip.c:149-194 *)
Definition Gzip_Vsb (level : N) (t : bytes) : res bytes :=
  let p := gzip level t in
  let* g := Gzip_GoodAa p in
  let* _ := guard g in
  if len p <? 24 then UB else
  Ok (file_write p 16 (le_enc 8 (len p))).
End Vsb.

(* ------------------------------------------------------------------ *)
(* Stitching, gzip.c:215-367                                            *)

Inductive gzstate := GzOutside | GzInside | GzTail.

(* struct gzip_stitch, gzip.c:221-232; gs_out is what has been given to
   gs->func, which is taken to return 0 always (retval == 0).  tailbuf is the
   part of the tail seen so far: its length is 13 - gzlen in state GzTail. *)
Record stitch := mkGS {
  gs_state : gzstate; gs_gzlen : Z; gs_crc : N; gs_lcrc : N; gs_tail : bytes;
  gs_out : bytes }.

(* gzip_stitch_head, gzip.c:238-246 *)
Definition gzip_stitch_head : bytes := [31; 139; 8; 0; 0; 0; 0; 0; 4; 3].

(* gzip_stitch_new, gzip.c:248-266; crc32(0, NULL, 0) is 0 *)
Definition gzip_stitch_new : stitch :=
  mkGS GzOutside 0 0 0 [] gzip_stitch_head.

Section Stitch.
(* crc32_combine(3) *)
Variable comb : N -> N -> N -> N.

(* The end of the tail, gzip.c:324-340: p is tailbuf *)
Definition stitch_tail (gs : stitch) (p : bytes) : res stitch :=
  let* o :=
    if (nth 3 p 0 =? 3) && (nth 4 p 0 =? 0) then Ok (firstn 3 p)
    else if (nth 0 p 0 =? 1) && (nth 1 p 0 =? 0) && (nth 2 p 0 =? 0) &&
            (nth 3 p 0 =? 255) && (nth 4 p 0 =? 255) then Ok []
    else Abort in
  let crc := le_dec (firstn 4 (skipn 5 p)) in
  let nb := le_dec (firstn 4 (skipn 9 p)) in
  Ok (mkGS GzOutside 0 (comb (gs_crc gs) crc nb) ((gs_lcrc gs + nb) mod 2 ^ 32) p
           (gs_out gs ++ o)).

(* gzip_stitch_feed, gzip.c:268-344: one call.  Each round of the while loop
   consumes input or goes from GzInside to GzTail.  memcpy(3) past the end of
   tailbuf and a negative length given to gs->func are UB. *)
Fixpoint stitch_loop (fuel : nat) (gs : stitch) (p : bytes) : res stitch :=
  match fuel with
  | O => Fuel
  | S fu =>
      match p with
      | [] => Ok gs
      | _ =>
          match gs_state gs with
          | GzOutside =>
              let* _ := guard (24 <=? len p) in
              let* _ := guard ((nth 0 p 0 =? 31) && (nth 1 p 0 =? 139) && (nth 2 p 0 =? 8) &&
                               (nth 3 p 0 =? 4) && (nth 12 p 0 =? 65) && (nth 13 p 0 =? 97) &&
                               (nth 14 p 0 =? 8) && (nth 15 p 0 =? 0)) in
              let gzlen := (to_i64 (le_dec (firstn 8 (skipn 16 p))) - 24)%Z in
              stitch_loop fu (mkGS GzInside gzlen (gs_crc gs) (gs_lcrc gs) (gs_tail gs) (gs_out gs))
                             (skipn 24 p)
          | GzInside =>
              let l := Z.of_N (len p) in
              let* _ := guard (l <=? gs_gzlen gs)%Z in
              let skip := if (gs_gzlen gs - 13 <? l)%Z then (gs_gzlen gs - 13)%Z else l in
              if (skip <? 0)%Z then UB else
              let k := Z.to_nat skip in
              let g := (gs_gzlen gs - skip)%Z in
              stitch_loop fu
                (mkGS (if (g =? 13)%Z then GzTail else GzInside) g (gs_crc gs) (gs_lcrc gs)
                      [] (gs_out gs ++ firstn k p))
                (skipn k p)
          | GzTail =>
              let l := Z.of_N (len p) in
              if (gs_gzlen gs <? l)%Z then UB else
              let t := gs_tail gs ++ p in
              let g := (gs_gzlen gs - l)%Z in
              if (g =? 0)%Z
              then stitch_tail gs t
              else Ok (mkGS GzTail g (gs_crc gs) (gs_lcrc gs) t (gs_out gs))
          end
      end
  end.

Definition gzip_stitch_feed (gs : stitch) (p : bytes) : res stitch :=
  stitch_loop (List.length p + 3) gs p.

(* gzip_stitch_fini, gzip.c:346-367: everything that went to gs->func *)
Definition gzip_stitch_fini (gs : stitch) : bytes :=
  gs_out gs ++ [1; 0; 0; 255; 255] ++ le_enc 4 (gs_crc gs) ++ le_enc 4 (gs_lcrc gs).

(* GetJob_Iter, getjob.c:252-263: several segments, each read in pieces by
   Rsilo_ReadGZChunk (rsilo.c:210-238) *)
Fixpoint stitch_pieces (gs : stitch) (ps : list bytes) : res stitch :=
  match ps with
  | [] => Ok gs
  | p :: r => let* gs' := gzip_stitch_feed gs p in stitch_pieces gs' r
  end.

Definition stitch_all (ps : list bytes) : res bytes :=
  let* gs := stitch_pieces gzip_stitch_new ps in Ok (gzip_stitch_fini gs).
End Stitch.
