(* Model of /repo/index.c. *)
From Verif Require Import Base.
Open Scope N_scope.

(* ------------------------------------------------------------------ *)
(* IDX_Valid_Id, index.c:155-177.                                       *)

Inductive idverdict :=
| IdOk (nid : bytes)      (* returns NULL, *nid is set *)
| IdWrongPrefix           (* "ID is invalid (wrong prefix?)" *)
| IdNonHex                (* "ID is invalid (non-hex characters)" *)
| IdTooShort              (* "ID is invalid (too short)" *)
| IdTooLong.              (* "ID is invalid (too long)" *)

(* index.c:162-163: strncasecmp(id, prefix, strlen(prefix)) == 0 *)
Definition strip_prefix (prefix id : bytes) : bytes :=
  if ncaseeq (length prefix) id prefix then skipn (length prefix) id else id.

(* index.c:155-177. C strings are NUL-free byte lists. *)
Definition IDX_Valid_Id (prefix : bytes) (id_size : N) (id0 : bytes) : idverdict :=
  let id := strip_prefix prefix id0 in
  if existsb (fun c => (c =? 58) || (c =? 47)) id then IdWrongPrefix
  else if negb (forallb is_hex id) then IdNonHex
  else if len id <? id_size then IdTooShort
  else if id_size <? len id then IdTooLong
  else IdOk id.

(* ------------------------------------------------------------------ *)
(* Records.                                                             *)

(* idx_hex_digit, index.c:193-203; WRONG() is Abort. *)
Definition idx_hex_digit (key : N) : res N :=
  if (48 <=? key) && (key <=? 57) then Ok (key - 48)
  else if (97 <=? key) && (key <=? 102) then Ok (10 + key - 97)
  else if (65 <=? key) && (key <=? 70) then Ok (10 + key - 65)
  else Abort.

(* idx_key_bin, index.c:205-222: keylen bytes from hex, zero padded. *)
Fixpoint idx_key_bin (keylen : nat) (key : bytes) : res bytes :=
  match keylen with
  | O => Ok []
  | S k =>
      match key with
      | [] => let* t := idx_key_bin k [] in Ok (0 :: t)
      | [a] => let* x := idx_hex_digit a in
               let* t := idx_key_bin k [] in Ok (x * 16 :: t)
      | a :: b :: key' =>
          let* x := idx_hex_digit a in
          let* y := idx_hex_digit b in
          let* t := idx_key_bin k key' in Ok (x * 16 + y :: t)
      end
  end.

Definition KEYSUMM : nat := 12.     (* index.c:153 *)

(* The 32 bytes IDX_Insert builds, index.c:232-240; cont = None is NULL. *)
Definition idx_record (key : bytes) (flags silo offset : N) (cont : option bytes)
  : res bytes :=
  let* k := idx_key_bin KEYSUMM key in
  let* c := match cont with
            | None => Ok (repeat 0 4)
            | Some c => idx_key_bin 4 c
            end in
  Ok (k ++ be_enc 4 flags ++ be_enc 4 silo ++ be_enc 8 offset ++ c).

(* ------------------------------------------------------------------ *)
(* Bucket table.                                                        *)

Definition INDEX_ID : N := 16737.   (* 0x4161, index.c:253 *)

(* struct bucket, index.c:255-262 *)
Record bucket := mkBucket { bbucket : N; nrec : N; bkts : list Z }.

(* index.c:296-298: for (b = 14; (1L << b) < nrec; b++) *)
Fixpoint bb_loop (fuel : nat) (b nrec : N) : N :=
  match fuel with
  | O => b
  | S f => if 2 ^ b <? nrec then bb_loop f (b + 1) nrec else b
  end.

(* bucket_new, index.c:280-310.  27 rounds suffice below 2^40 records, which
   the AZ() at index.c:286 demands. *)
Definition bucket_new (nrec_estimate : N) : res bucket :=
  let* _ := guard (nrec_estimate <? 2 ^ 40) in
  let bb := bb_loop 27 14 nrec_estimate - 12 in
  Ok (mkBucket bb nrec_estimate (repeat (2 ^ 31)%Z (N.to_nat (2 ^ bb)))).

Fixpoint set_nth {A} (n : nat) (x : A) (l : list A) : list A :=
  match l, n with
  | [], _ => []
  | _ :: t, O => x :: t
  | y :: t, S m => y :: set_nth m x t
  end.

(* index.c:322-325: predicted record number from the first 8 key bytes *)
Definition predict (nrec : N) (frac : N) : N :=
  ((frac / 2 ^ 40) * nrec mod 2 ^ 64) / 2 ^ 24.

(* bucket_update, index.c:312-329. *)
Definition bucket_update (bp : bucket) (n : N) (rec : bytes) : bucket :=
  let u := be_dec (firstn 8 rec) in
  let b := u / 2 ^ (64 - bbucket bp) in
  let u := predict (nrec bp) u in
  let off := nth (N.to_nat b) (bkts bp) 0%Z in
  if (0 <? b) && (Z.of_N n <? (Z.of_N u + off) mod 2 ^ 64)%Z
  then mkBucket (bbucket bp) (nrec bp)
         (set_nth (N.to_nat b) (Z.of_N n - Z.of_N u)%Z (bkts bp))
  else bp.

(* bucket_write, index.c:331-350: the bytes written at the start of the file.
   The bit fields of buckets[0] are disjoint (nrec < 2^40), so | is +. *)
Definition bucket_bytes (bp : bucket) : bytes :=
  let b0 := Z.of_N (INDEX_ID * 2 ^ 48 + bbucket bp * 2 ^ 40 + nrec bp) in
  concat (map (fun z => be_enc 8 (Z.to_N (z mod 2 ^ 64)))
              (set_nth 0 b0 (bkts bp))).

(* fread(buf, 8, 1, f) at byte position pos *)
Definition read8 (file : bytes) (pos : N) : res N :=
  let b := firstn 8 (skipn (N.to_nat pos) file) in
  if Nat.eqb (length b) 8 then Ok (be_dec b) else Abort.

(* bucket_skip, index.c:264-278: position of the first record *)
Definition bucket_skip (file : bytes) : res N :=
  let* id := read8 file 0 in
  let* _ := guard (id / 2 ^ 48 =? INDEX_ID) in
  let bb := id / 2 ^ 40 mod 256 in
  if 62 <=? bb + 3 then UB else Ok (2 ^ (bb + 3)).

Definition to_i64 (n : N) : Z :=      (* (int64_t) of a uint64_t *)
  if n <? 2 ^ 63 then Z.of_N n else (Z.of_N n - 2 ^ 64)%Z.

(* bucket_seek, index.c:352-386: the file position, in bytes, where the scan
   starts.  "unsigned nrec" (index.c:360,372) keeps 32 bits.  The seek target
   at index.c:382 does not include the size of the bucket table.  A shift by
   64 or a signed overflow is UB, a negative fseeko() fails with EINVAL and
   AZ() aborts. *)
Definition bucket_seek (key_p : bytes) (file : bytes) : res N :=
  let* id := read8 file 0 in
  let* _ := guard (id / 2 ^ 48 =? INDEX_ID) in
  let nb := id / 2 ^ 40 mod 256 in
  let nrec := id mod 2 ^ 40 mod 2 ^ 32 in
  let frac := be_dec (firstn 8 key_p) in
  if (nb =? 0) || (60 <? nb) then UB else
  let b := frac / 2 ^ (64 - nb) in
  if 0 <? b then
    let* o := read8 file (b * 8) in
    let pos := to_i64 (Z.to_N ((Z.of_N (predict nrec frac) + Z.of_N o) mod 2 ^ 64)) in
    if (pos <? - 2 ^ 58)%Z || (2 ^ 58 <=? pos)%Z then UB
    else if (pos <? 0)%Z then Abort
    else Ok (Z.to_N pos * 32)
  else Ok (2 ^ (nb + 3)).

(* ------------------------------------------------------------------ *)
(* The index files.                                                     *)

(* The directory entries index.sorted, index.appendix, index.housekeep and
   index.hold.  The sorted file is only ever replaced as a whole by rename(2),
   so its content is kept directly.  The appendix and the snapshot can be two
   links to the same inode, so they are inode numbers into [f_ino]. *)
Record ifs := mkIfs {
  f_sorted : option bytes;
  f_app    : option nat;
  f_hk     : option nat;
  f_ino    : list bytes;
  f_hold   : bool
}.

Definition ifs_empty : ifs := mkIfs None None None [] false.

Definition ino_data (st : ifs) (i : nat) : bytes := nth i (f_ino st) [].
Definition app_data (st : ifs) : option bytes := option_map (ino_data st) (f_app st).
Definition hk_data (st : ifs) : option bytes := option_map (ino_data st) (f_hk st).

(* open(appendix, O_WRONLY|O_CREAT|O_APPEND), index.c:242-244 *)
Definition open_append (st : ifs) : ifs * nat :=
  match f_app st with
  | Some i => (st, i)
  | None => (mkIfs (f_sorted st) (Some (length (f_ino st))) (f_hk st)
                   (f_ino st ++ [[]]) (f_hold st),
             length (f_ino st))
  end.

(* write(fd, rec, 32), index.c:245-246 *)
Definition write_append (st : ifs) (i : nat) (rec : bytes) : ifs :=
  mkIfs (f_sorted st) (f_app st) (f_hk st)
        (set_nth i (ino_data st i ++ rec) (f_ino st)) (f_hold st).

(* IDX_Insert, index.c:224-249.  The assert at index.c:232 is about the
   configuration (id_size >= 16). *)
Definition IDX_Insert (id_size : N) (st : ifs) (key : bytes) (flags silo offset : N)
    (cont : option bytes) : res ifs :=
  let* _ := guard (16 <=? id_size) in
  let* r := idx_record key flags silo offset cont in
  let '(st', i) := open_append st in
  Ok (write_append st' i r).

(* What IDX_Iter hands its callback, index.c:443-457 *)
Record ixent := mkEnt {
  e_key : bytes; e_flags : N; e_silo : N; e_off : N; e_cont : bytes }.

Definition slice (a b : nat) (r : bytes) : bytes := firstn b (skipn a r).

(* index.c:443-457: "%016jx%08x", be32dec(rec+12) ... *)
Definition ent_of_rec (r : bytes) : ixent :=
  mkEnt (hexpad 16 (be_dec (slice 0 8 r)) ++ hexpad 8 (be_dec (slice 8 4 r)))
        (be_dec (slice 12 4 r)) (be_dec (slice 16 4 r)) (be_dec (slice 20 8 r))
        (hexpad 8 (be_dec (slice 28 4 r))).

(* The callback: priv pointer state in, (return value, state) out. *)
Definition idx_cb (S : Type) := S -> ixent -> Z * S.

(* The do-while loop over one file, index.c:429-459.  [key] is key_part or
   None for NULL, [cl] the compared length. *)
Fixpoint idx_scan {S} (func : idx_cb S) (sorted : bool) (key : option bytes)
    (key_p : bytes) (cl : nat) (recs : list bytes) (s : S) : res (Z * S) :=
  match recs with
  | [] => Ok (0%Z, s)
  | r :: rest =>
      if negb (Nat.eqb (length r) 32) then Abort else
      let j := if Nat.leb 2 cl
               then lex (firstn (Nat.div2 cl) r) (firstn (Nat.div2 cl) key_p)
               else Eq in
      match j with
      | Gt => if sorted then Ok (0%Z, s)
              else idx_scan func sorted key key_p cl rest s
      | Lt => idx_scan func sorted key key_p cl rest s
      | Eq =>
          let e := ent_of_rec r in
          let skip := match key with
                      | None => false
                      | Some k => negb (ncaseeq cl (e_key e) k)
                      end in
          if skip then idx_scan func sorted key key_p cl rest s
          else if 2 ^ 63 <=? e_off e then Abort
          else let '(i, s') := func s e in
               if (i =? 0)%Z then idx_scan func sorted key key_p cl rest s'
               else Ok (i, s')
      end
  end.

(* index.c:416-425 *)
Definition iter_key (key_part : option bytes) : res (bytes * nat) :=
  match key_part with
  | None => Ok (repeat 0 KEYSUMM, O)
  | Some k =>
      let* _ := guard (forallb is_hex k) in
      let* kp := idx_key_bin KEYSUMM k in
      Ok (kp, Nat.min (length k) (KEYSUMM * 2))
  end.

(* One of the three files of idxfiles[], index.c:392-401,428-463.  [i] is the
   value of the C variable i (-1 until a file is opened). *)
Definition iter_file {S} (func : idx_cb S) (key : option bytes) (key_p : bytes)
    (cl : nat) (sorted : bool) (file : option bytes) (st : Z * S) : res (Z * S) :=
  match file with
  | None => Ok st
  | Some f =>
      let* pos := if sorted then bucket_seek key_p f else Ok 0 in
      idx_scan func sorted key key_p cl (chunks 32 (skipn (N.to_nat pos) f)) (snd st)
  end.

(* "if (i) break" between the files, index.c:461-462.  The [continue] of a
   file which cannot be opened (index.c:431-432) skips this test, and i is
   then still -1 or 0. *)
Definition iter_next {S} (file : option bytes) (k : Z * S -> res (Z * S))
    (st : Z * S) : res (Z * S) :=
  match file with
  | Some _ => if (fst st =? 0)%Z then k st else Ok st
  | None => k st
  end.

(* IDX_Iter, index.c:403-473 *)
Definition IDX_Iter {S} (func : idx_cb S) (st : ifs) (key : option bytes) (s : S)
  : res (Z * S) :=
  let* (key_p, cl) := iter_key key in
  let step := iter_file func key key_p cl in
  let* a := step true (f_sorted st) ((-1)%Z, s) in
  iter_next (f_sorted st) (fun a =>
    let* b := step false (app_data st) a in
    iter_next (app_data st) (fun b => step false (hk_data st) b) b) a.

(* A callback that collects everything. *)
Definition collect : idx_cb (list ixent) := fun s e => (0%Z, s ++ [e]).

(* All entries a lookup reports. *)
Definition lookup (st : ifs) (key : option bytes) : res (list ixent) :=
  let* (_, l) := IDX_Iter collect st key [] in Ok l.

(* ------------------------------------------------------------------ *)
(* Merge.                                                               *)

(* (bp, n, records written so far) in idx_merge *)
Record mstate := mkM { m_bp : bucket; m_n : N; m_out : list bytes }.

(* index.c:525-528 and 535-538, 544-547: bucket_update(bp, n++, r); fwrite *)
Definition emit (m : mstate) (r : bytes) : mstate :=
  mkM (bucket_update (m_bp m) (m_n m) r) (m_n m + 1) (m_out m ++ [r]).

(* index.c:524-529: while (len > 0 && memcmp(rec, ptr, 32) > 0) *)
Fixpoint merge_less (m : mstate) (rec : bytes) (ptr : list bytes)
  : mstate * list bytes :=
  match ptr with
  | [] => (m, [])
  | p :: ptr' => match lex rec p with
                 | Gt => merge_less (emit m p) rec ptr'
                 | _ => (m, ptr)
                 end
  end.

(* index.c:530-533: while (len > 0 && memcmp(rec, ptr, 32) == 0) *)
Fixpoint merge_skip (rec : bytes) (ptr : list bytes) : list bytes :=
  match ptr with
  | [] => []
  | p :: ptr' => match lex rec p with
                 | Eq => merge_skip rec ptr'
                 | _ => ptr
                 end
  end.

(* index.c:513-541: loop over the old sorted file *)
Fixpoint merge_loop (m : mstate) (recl : bytes) (f1 ptr : list bytes)
  : res (mstate * list bytes) :=
  match f1 with
  | [] => Ok (m, ptr)
  | rec :: f1' =>
      let* _ := guard (lexb_le recl rec) in
      let '(m1, ptr1) := merge_less m rec ptr in
      let ptr2 := merge_skip rec ptr1 in
      merge_loop (emit m1 rec) rec f1' ptr2
  end.

(* fread(rec, 32, 1, f) until it returns 0: whole records only *)
Definition whole_records (f : bytes) : list bytes :=
  filter (fun r => Nat.eqb (length r) 32) (chunks 32 f).

(* idx_merge, index.c:475-551: the content of the new sorted file.  [ptr] is
   the sorted array of records. *)
Definition idx_merge (sorted : option bytes) (ptr : list bytes) : res bytes :=
  let* _ := guard (negb (Nat.eqb (length ptr) 0)) in
  let n0 := len ptr + match sorted with None => 0 | Some f => len f / 32 end in
  let* bp := bucket_new n0 in
  let m0 := mkM bp 0 [] in
  let* (m, rest) :=
    match sorted with
    | None => Ok (m0, ptr)
    | Some f =>
        let* pos := bucket_skip f in
        merge_loop m0 (repeat 0 32) (whole_records (skipn (N.to_nat pos) f)) ptr
    end in
  let m' := fold_left emit rest m in
  Ok (bucket_bytes (m_bp m') ++ concat (m_out m')).

(* qsort(3) with idx_cmp, index.c:553-557,606.  Records comparing equal are
   identical, so the result of any sorting algorithm is the same. *)
Fixpoint ins_rec (r : bytes) (l : list bytes) : list bytes :=
  match l with
  | [] => [r]
  | x :: l' => if lexb_le r x then r :: l else x :: ins_rec r l'
  end.
Definition sort_recs (l : list bytes) : list bytes := fold_right ins_rec [] l.

(* ------------------------------------------------------------------ *)
(* Housekeeping as a sequence of system calls.                           *)

(* Program counter of a process inside IDX_Resort, index.c:616-653, and
   idx_attempt_merge, index.c:559-614.  Each step is one system call with an
   effect on (or observation of) the shared files. *)
Inductive hk_pc :=
| HHold                         (* open(hold, O_CREAT|O_EXCL), 626 *)
| HLink                         (* link(appendix, housekeep), 568 *)
| HUnlinkApp                    (* unlink(appendix), 570 *)
| HOpen (again : bool)          (* open(housekeep), 588 *)
| HRead (again : bool) (ino : nat) (pos : nat)
                                (* read(fd, spc, index_sort_size), 597 *)
| HMerge (again : bool) (ino : nat) (pos : nat) (chunk : list bytes) (full : bool)
                                (* fopen(sorted) and reading it, 492-541 *)
| HRename (again : bool) (ino : nat) (pos : nat) (new : bytes) (full : bool)
                                (* rename(tmp, sorted), 547 *)
| HUnlinkHk (again : bool)      (* unlink(housekeep), 612 *)
| HUnhold                       (* unlink(hold), 651 *)
| HDone                         (* returned *)
| HAbort.                       (* assertion failed; the hold file stays *)

(* One system call.  The temporary file is private to the process and not
   modelled; idx_merge's reading of the old sorted file is one step because
   that file's inode is never modified.  [again] is retval = 1 of
   idx_attempt_merge.  [sort_size] is index.sort_size (aardwarc.c:180-190:
   a multiple of 32 and at least 4096). *)
Definition hk_step (sort_size : N) (st : ifs) (pc : hk_pc) : ifs * hk_pc :=
  match pc with
  | HHold =>
      if f_hold st then (st, HDone)
      else (mkIfs (f_sorted st) (f_app st) (f_hk st) (f_ino st) true, HLink)
  | HLink =>
      match f_app st, f_hk st with
      | None, _ => (st, HUnhold)                       (* ENOENT, 571-573 *)
      | Some _, Some _ => (st, HOpen true)             (* EEXIST, 574-579 *)
      | Some i, None =>
          (mkIfs (f_sorted st) (f_app st) (Some i) (f_ino st) (f_hold st), HUnlinkApp)
      end
  | HUnlinkApp =>
      match f_app st with
      | Some _ => (mkIfs (f_sorted st) None (f_hk st) (f_ino st) (f_hold st), HOpen false)
      | None => (st, HAbort)
      end
  | HOpen again =>
      match f_hk st with
      | Some i => (st, HRead again i 0)
      | None => (st, HAbort)    (* 589-595 free(spc), then again at 647: UB *)
      end
  | HRead again i pos =>
      let buf := firstn (N.to_nat sort_size) (skipn pos (ino_data st i)) in
      if Nat.eqb (length buf) 0 then (st, HUnlinkHk again)
      else if negb (Nat.eqb (Nat.modulo (length buf) 32) 0) then (st, HAbort)
      else (st, HMerge again i (pos + length buf) (sort_recs (chunks 32 buf))
                       (len buf =? sort_size))
  | HMerge again i pos chunk full =>
      match idx_merge (f_sorted st) chunk with
      | Ok new => (st, HRename again i pos new full)
      | _ => (st, HAbort)
      end
  | HRename again i pos new full =>
      (mkIfs (Some new) (f_app st) (f_hk st) (f_ino st) (f_hold st),
       if full then HRead again i pos else HUnlinkHk again)
  | HUnlinkHk again =>
      match f_hk st with
      | Some _ =>
          (mkIfs (f_sorted st) (f_app st) None (f_ino st) (f_hold st),
           if again then HLink else HUnhold)           (* 641-642 *)
      | None => (st, HAbort)
      end
  | HUnhold => (mkIfs (f_sorted st) (f_app st) (f_hk st) (f_ino st) false, HDone)
  | HDone => (st, HDone)
  | HAbort => (st, HAbort)
  end.

(* The whole of IDX_Resort run without interference: at most [fuel] system
   calls. *)
Fixpoint hk_run (fuel : nat) (sort_size : N) (st : ifs) (pc : hk_pc) : ifs * hk_pc :=
  match fuel with
  | O => (st, pc)
  | S f => match pc with
           | HDone | HAbort => (st, pc)
           | _ => let '(st', pc') := hk_step sort_size st pc in
                  hk_run f sort_size st' pc'
           end
  end.

(* Upper bound of the number of system calls needed: two rounds over the
   inodes. *)
Definition hk_fuel (st : ifs) : nat :=
  20 + 4 * (2 + length (concat (f_ino st))) * 2.

(* IDX_Resort, index.c:616-653; malloc(3) does not fail. *)
Definition IDX_Resort (sort_size : N) (st : ifs) : res ifs :=
  match hk_run (hk_fuel st) sort_size st HHold with
  | (st', HDone) => Ok st'
  | (_, HAbort) => Abort
  | _ => Fuel
  end.
