(* Model of main_reindex.c: what the reindex command inserts in the index.

   The silos are given as a list of numbers and contents, in the order they are
   visited (Silo_Iter, silo.c:85-113, visits them in the order of their numbers, the
   command line in any order).  What the command does to the index is the list of
   its calls of IDX_Insert and IDX_Resort ([iop], IndexSpec); what the index files
   look like after them is [run_ops].  The text written to stdout is not modelled. *)
From Coq Require Import String.
From Verif Require Import Base IndexModel IndexSpec HeaderModel GzipModel ProgModel StoreModel.
Open Scope string_scope.
Open Scope list_scope.
Open Scope N_scope.

(* struct seg, main_reindex.c:47-58; the counters used and done are only tested
   for zero *)
Record seg := mkSeg {
  s_id : bytes; s_flg : N; s_parent : bytes; s_silo : N; s_off : N; s_no : N;
  s_used : bool; s_done : bool }.

(* IDX_Insert of a segment; the silo number is passed as a uint32_t *)
Definition put_seg (s : seg) (cont : option bytes) : iop :=
  OInsert (s_id s) (s_flg s) (s_silo s mod 2 ^ 32) (s_off s) cont.

(* The text after the last '/', main_reindex.c:159-161 *)
Fixpoint after_slash (s : bytes) : option bytes :=
  match s with
  | [] => None
  | c :: r => match after_slash r with
              | Some x => Some x
              | None => if c =? 47 then Some r else None
              end
  end.

Section Reindex.
Variable C : conf.

(* strncmp(a, b, aa->id_size) of two texts without NUL *)
Definition pcmp (a b : bytes) : comparison :=
  lex (firstn (N.to_nat (c_idsize C)) a) (firstn (N.to_nat (c_idsize C)) b).

(* emit_seg and drop_seg, main_reindex.c:81-109, where seg (here b) follows seg2
   (here a) in the list: what is inserted, and what is left of the two *)
Definition emit_seg (b a : seg) : res (iop * list seg) :=
  let o := put_seg b (Some (s_id a)) in
  let* _ := guard (negb (s_done b)) in
  let* _ := guard (negb (s_used a)) in
  let b' := mkSeg (s_id b) (s_flg b) (s_parent b) (s_silo b) (s_off b) (s_no b) (s_used b) true in
  let a' := mkSeg (s_id a) (s_flg a) (s_parent a) (s_silo a) (s_off a) (s_no a) true (s_done a) in
  Ok (o, (if s_done a then [] else [a']) ++ (if s_used b then [] else [b'])).

(* try_seg, main_reindex.c:111-120, on the list from that segment on.  Overflow of
   an off_t is UB. *)
Definition try_seg (l : list seg) : res (list iop * list seg) :=
  match l with
  | a :: b :: r =>
      if s_done b then Ok ([], l) else
      if s_no b =? 2 ^ 63 - 1 then UB else
      if (s_no b + 1 =? s_no a) && match pcmp (s_parent b) (s_parent a) with Eq => true | _ => false end
      then let* (o, k) := emit_seg b a in Ok ([o], k ++ r)
      else Ok ([], l)
  | _ => Ok ([], l)
  end.

(* The loop at main_reindex.c:187-194: the list in front of the place where the
   segment goes, last first, and the list behind *)
Fixpoint find_place (s : seg) (front l : list seg) : list seg * list seg :=
  match l with
  | [] => (front, [])
  | x :: r =>
      match pcmp (s_parent x) (s_parent s) with
      | Lt => find_place s (x :: front) r
      | Gt => (front, l)
      | Eq => if s_no x <? s_no s then (front, l) else find_place s (x :: front) r
      end
  end.

(* The segment got_seg makes, main_reindex.c:154-185, and what it inserts at once *)
Definition new_seg (hd : header) (flg off segno silono : N) : res (seg * list iop) :=
  let id := Header_Get_Id hd in
  let flg := N.lor flg IDX_F_SEGMENTED in
  let* (flg, parent) :=
    (if 1 <? segno then
      match Header_Get hd (str "WARC-Segment-Origin-ID") with
      | None => Abort
      | Some p => match after_slash p with None => Abort | Some p => Ok (flg, p) end
      end
    else Ok (N.lor flg IDX_F_FIRSTSEG, id)) in
  match Header_Get hd (str "WARC-Segment-Total-Length") with
  | Some _ =>
      let s := mkSeg id (N.lor flg IDX_F_LASTSEG) parent silono off segno (segno =? 1) true in
      Ok (s, [put_seg s None])
  | None => Ok (mkSeg id flg parent silono off segno (segno =? 1) false, [])
  end.

(* got_seg, main_reindex.c:187-204 *)
Definition place_seg (s : seg) (segs : list seg) : res (list iop * list seg) :=
  let (front, rest) := find_place s [] segs in
  let* (o1, l1) := try_seg (s :: rest) in
  match front with
  | [] => Ok (o1, l1)
  | p :: front' => let* (o2, l2) := try_seg (p :: l1) in Ok (o1 ++ o2, rev front' ++ l2)
  end.

Definition got_seg (hd : header) (flg off segno silono : N) (segs : list seg) : res (list iop * list seg) :=
  let* (s, o0) := new_seg hd flg off segno silono in
  let* (o, l) := place_seg s segs in
  Ok (o0 ++ o, l).

(* One turn of the loop of silo_iter, main_reindex.c:236-254 *)
Definition one_record (hd : header) (off silono : N) (segs : list seg) : res (list iop * list seg) :=
  match Header_Get hd (str "WARC-Type") with
  | None => Abort
  | Some wt =>
      let flg := if bytes_eqb wt (str "warcinfo") then IDX_F_WARCINFO
                 else if bytes_eqb wt (str "metadata") then IDX_F_METADATA
                 else if bytes_eqb wt (str "resource") then IDX_F_RESOURCE else 0 in
      let* im := Header_Get_Number hd (str "WARC-Segment-Number") in
      if (im <? 0)%Z
      then Ok ([OInsert (Header_Get_Id hd) flg (silono mod 2 ^ 32) off None], segs)
      else got_seg hd flg off (Z.to_N im) silono segs
  end.

(* The loop of silo_iter, main_reindex.c:230-258, with Rsilo_Tell and
   Rsilo_NextHeader (rsilo.c:147-156, 211-223) *)
Fixpoint silo_loop (fuel : nat) (b : bytes) (off silono : N) (segs : list seg) : res (list iop * list seg) :=
  match fuel with
  | O => Fuel
  | S fuel =>
      let* h := Rsilo_ReadHeader C b off in
      match h with
      | None => Ok ([], segs)
      | Some (hd, bl, boff) =>
          let* (o1, segs) := one_record hd off silono segs in
          let next := (Z.of_N boff + bl + Z.of_N (len crnlcrnl))%Z in
          let* _ := guard (0 <? next)%Z in
          let* (o2, segs) := silo_loop fuel b (Z.to_N next) silono segs in
          Ok (o1 ++ o2, segs)
      end
  end.

(* silo_iter, main_reindex.c:206-262; every record takes at least one byte *)
Definition silo_iter (b : bytes) (silono : N) (segs : list seg) : res (list iop * list seg) :=
  let* (o, segs) := silo_loop (S (List.length b)) b 0 silono segs in
  Ok (o ++ [OResort], segs).

Fixpoint all_silos (l : list (N * bytes)) (segs : list seg) : res (list iop * list seg) :=
  match l with
  | [] => Ok ([], segs)
  | (n, b) :: r =>
      let* (o1, segs) := silo_iter b n segs in
      let* (o2, segs) := all_silos r segs in
      Ok (o1 ++ o2, segs)
  end.

(* reindex_iter, main_reindex.c:122-141, for one entry: the segments which are
   listed under the same 16 digits are inserted and dropped *)
Definition reindex_iter (segs : list seg) (e : ixent) : list iop * list seg :=
  if flag (e_flags e) IDX_F_SEGMENTED then
    let same s := match lex (firstn 16 (e_key e)) (firstn 16 (s_id s)) with Eq => true | _ => false end in
    (map (fun s => put_seg s (Some (e_cont e))) (filter same segs), filter (fun s => negb (same s)) segs)
  else ([], segs).

Fixpoint rematch (segs : list seg) (es : list ixent) : list iop * list seg :=
  match es with
  | [] => ([], segs)
  | e :: r => let (o1, segs) := reindex_iter segs e in
              let (o2, segs) := rematch segs r in (o1 ++ o2, segs)
  end.

(* main_reindex, main_reindex.c:276-310: all operations on the index, and the
   segments left over.  [es] is what IDX_Iter reports when segments are left:
   entries from before, from this run, and from the rematch itself, for the
   append file is read piece by piece. *)
Definition main_reindex (es : list ixent) (silos : list (N * bytes)) : res (list iop * list seg) :=
  let* (o, segs) := all_silos silos [] in
  match segs with
  | [] => Ok (o, [])
  | _ => let (o', segs) := rematch segs es in Ok (o ++ o', segs)
  end.

(* The number of a silo given by its file name: strrchr(3) and strtoul(3) at
   main_reindex.c:223-228.  White space and a sign may come first; a number too
   large for an unsigned long (64 bits) is the largest; a minus sign negates it.
   A number of 2^63 or more is negative as ssize_t, but only its last 32 bits
   matter. *)
Fixpoint digits_of (s : bytes) : bytes :=
  match s with
  | c :: r => if is_digit c then c :: digits_of r else []
  | [] => []
  end.
Fixpoint skip_space (s : bytes) : bytes :=
  match s with
  | c :: r => if (c =? 32) || (9 <=? c) && (c <=? 13) then skip_space r else s
  | [] => []
  end.
Definition strtoul10 (s : bytes) : N :=
  let num r := N.min (fold_left (fun a c => a * 10 + (c - 48)) (digits_of r) 0) (2 ^ 64 - 1) in
  match skip_space s with
  | 45 :: r => (2 ^ 64 - num r) mod 2 ^ 64
  | 43 :: r => num r
  | r => num r
  end.
Definition arg_number (fn : bytes) : res N :=
  match after_slash fn with
  | None => Abort
  | Some p => Ok (strtoul10 p)
  end.

(* main_reindex with arguments, main_reindex.c:297-298: file names and contents.
   Files which cannot be opened are left out before, see AcmdModel.v. *)
Fixpoint named_silos (l : list (bytes * bytes)) : res (list (N * bytes)) :=
  match l with
  | [] => Ok []
  | (fn, b) :: r =>
      let* n := arg_number fn in
      let* r := named_silos r in
      Ok ((n, b) :: r)
  end.
Definition main_reindex_named (es : list ixent) (files : list (bytes * bytes)) : res (list iop * list seg) :=
  let* l := named_silos files in
  main_reindex es l.
End Reindex.
