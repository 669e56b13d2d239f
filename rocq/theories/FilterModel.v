(* Model of /repo/main_filter.c. *)
From Verif Require Import Base IndexModel.
Open Scope N_scope.

(* struct cand, main_filter.c:43-51, without [found] *)
Record cand := mkCand { cd_id : bytes; cd_line : bytes }.

(* fgets(3): at most [room] bytes, up to and including a newline *)
Fixpoint take_line (room : nat) (f : bytes) : bytes * bytes :=
  match room, f with
  | S r, c :: f' =>
      if c =? 10 then ([c], f')
      else let '(l, rest) := take_line r f' in (c :: l, rest)
  | _, _ => ([], f)
  end.

(* strlen(3) of a buffer with a NUL somewhere *)
Fixpoint c_string (s : bytes) : bytes :=
  match s with [] => [] | c :: r => if c =? 0 then [] else c :: c_string r end.

(* One line of read_file, main_filter.c:147-175.  None is exit(1). *)
Inductive line_res := LBlank | LCand (c : cand) | LExit.
Definition read_line (prefix : bytes) (id_size : N) (buf : bytes) : res line_res :=
  match rev (c_string buf) with
  | [] => Abort                                                        (* 148 *)
  | c :: r =>
      if negb (c =? 10) then Ok LExit else                             (* 149-153 *)
      let line := rev r in
      match line with
      | [] => Ok LBlank
      | _ =>
          let p := strip_prefix prefix line in                         (* 161-163 *)
          if len p <? id_size then Ok LExit else
          let id := firstn (N.to_nat id_size) p in                     (* 168 *)
          if negb (forallb is_hex id) then Ok LExit
          else Ok (LCand (mkCand id line))
      end
  end.

(* read_file, main_filter.c:138-184: the candidates of a file.  [bufsiz] is
   BUFSIZ of <stdio.h>.  The first argument bounds the number of lines; a file
   has at most as many as bytes. *)
Fixpoint read_file (fuel : nat) (bufsiz : nat) (prefix : bytes) (id_size : N) (f : bytes)
  : res (option (list cand)) :=
  match f with
  | [] => Ok (Some [])
  | _ =>
      match fuel with
      | O => Fuel
      | S fu =>
          let '(buf, rest) := take_line (bufsiz - 1) f in
          let* x := read_line prefix id_size buf in
          match x with
          | LExit => Ok None
          | LBlank => read_file fu bufsiz prefix id_size rest
          | LCand c =>
              let* r := read_file fu bufsiz prefix id_size rest in
              Ok (option_map (cons c) r)
          end
      end
  end.

(* main_filter.c:242-271: the files one after the other; the list is
   [candidates].  Opening them does not fail. *)
Fixpoint read_files (bufsiz : nat) (prefix : bytes) (id_size : N) (fs : list bytes)
  : res (option (list cand)) :=
  match fs with
  | [] => Ok (Some [])
  | f :: r =>
      let* a := read_file (length f) bufsiz prefix id_size f in
      match a with
      | None => Ok None
      | Some l =>
          let* b := read_files bufsiz prefix id_size r in
          Ok (option_map (app l) b)
      end
  end.

(* needs_sort, main_filter.c:176-181: some candidate comes after a larger one *)
Fixpoint needs_sort (l : list cand) : bool :=
  match l with
  | a :: ((b :: _) as r) =>
      match lex (cd_id a) (cd_id b) with Gt => true | _ => needs_sort r end
  | _ => false
  end.

(* The candidates are numbered; the list [sorted] holds numbers and
   identifiers. *)
Definition scand := (nat * bytes)%type.
Definition numbered (l : list cand) : list scand :=
  combine (seq 0 (length l)) (map cd_id l).

(* State of the walk: [sorted] is [f_before ++ f_rest] and next_cand is the
   head of [f_rest] (NULL when that is empty), fp->last, and the candidates
   with [found] set. *)
Record fstate := mkF {
  f_before : list scand; f_rest : list scand; f_last : bytes; f_found : list nat }.

(* main_filter.c:124-125 *)
Fixpoint skip_less (key : bytes) (before rest : list scand) : list scand * list scand :=
  match rest with
  | c :: r => match lex (snd c) key with
              | Lt => skip_less key (before ++ [c]) r
              | _ => (before, rest)
              end
  | [] => (before, [])
  end.

(* !strncmp(key, id, strlen(key)) *)
Definition key_matches (key id : bytes) : bool :=
  bytes_eqb (firstn (length key) id) key.

(* main_filter.c:126-134.  [check] is !s_flag || !filter_s_check(...). *)
Fixpoint mark (check : bytes -> res bool) (key : bytes) (before rest : list scand) (found : list nat)
  : res (list scand * list scand * list nat) :=
  match rest with
  | c :: r =>
      if key_matches key (snd c) then
        let* ok := check (snd c) in
        if ok : bool then mark check key before r (found ++ [fst c])
        else mark check key (before ++ [c]) r found
      else Ok (before, rest, found)
  | [] => Ok (before, [], found)
  end.

(* filter_s_check, main_filter.c:86-106, negated: the record at the place the
   entry names has that identifier.  [hdr_id] is what Rsilo_Open,
   Rsilo_ReadHeader and Header_Get_Id make of silo number and offset. *)
Definition s_check (s_flag : bool) (hdr_id : N -> N -> res bytes) (e : ixent) (id : bytes) : res bool :=
  if s_flag then let* p := hdr_id (e_silo e) (e_off e) in Ok (caseeq p id) else Ok true.

(* filter_iter, main_filter.c:108-136.  Keys have 24 digits, so strlcpy does not
   cut. *)
Definition filter_step (s_flag : bool) (hdr_id : N -> N -> res bytes) (s : fstate) (e : ixent)
  : res (Z * fstate) :=
  match f_before s, f_rest s with
  | [], [] => Ok (1%Z, s)
  | _, _ =>
      let key := e_key e in
      let '(b, r) := if match f_rest s with [] => true | _ => lexb_lt key (f_last s) end
                     then ([], f_before s ++ f_rest s) else (f_before s, f_rest s) in
      let '(b, r) := skip_less key b r in
      let* (b, r, fd) := mark (s_check s_flag hdr_id e) key b r (f_found s) in
      Ok (0%Z, mkF b r key fd)
  end.

(* The same as a callback of IDX_Iter: an assertion which fails ends it. *)
Definition filter_iter (s_flag : bool) (hdr_id : N -> N -> res bytes) : idx_cb (res fstate) :=
  fun s e => match s with
             | Ok st => match filter_step s_flag hdr_id st e with
                        | Ok (i, st') => (i, Ok st')
                        | Abort => (1%Z, Abort) | UB => (1%Z, UB) | Fuel => (1%Z, Fuel)
                        end
             | x => (1%Z, x)
             end.

(* main_filter.c:286-297 *)
Fixpoint report (r_flag v_flag : bool) (found : list nat) (n : nat) (l : list cand) : bytes :=
  match l with
  | [] => []
  | c :: r =>
      let f := existsb (Nat.eqb n) found in
      (if v_flag then (if f then [49] else [48]) ++ [32] ++ cd_line c ++ [10]
       else if Bool.eqb r_flag f then cd_line c ++ [10] else [])
      ++ report r_flag v_flag found (S n) r
  end.

(* main_filter.c:272-297: what is printed, with these candidates.  [qsort] is
   qsort(3) with cand_cmp, 186-194. *)
Definition filter_rest (qsort : list scand -> list scand) (r_flag s_flag v_flag : bool) (hdr_id : N -> N -> res bytes) (st : ifs)
    (l : list cand) : res bytes :=
  let sorted := if needs_sort l then qsort (numbered l) else numbered l in
  let* (_, s) := IDX_Iter (filter_iter s_flag hdr_id) st None (Ok (mkF [] sorted [] [])) in
  let* s := s in
  Ok (report r_flag v_flag (f_found s) 0 l).

(* main_filter, main_filter.c:196-300, after option parsing and without -o: what is
   printed.  None is exit(1). *)
Definition main_filter (qsort : list scand -> list scand) (bufsiz : nat) (prefix : bytes) (id_size : N)
    (r_flag s_flag v_flag : bool) (hdr_id : N -> N -> res bytes) (files : list bytes) (st : ifs)
  : res (option bytes) :=
  let* l := read_files bufsiz prefix id_size files in
  match l with
  | None => Ok None
  | Some l => let* out := filter_rest qsort r_flag s_flag v_flag hdr_id st l in Ok (Some out)
  end.

(* ------------------------------------------------------------------ *)
From Verif Require Import ProgModel StoreModel HeaderModel.

(* The first half of filter_s_check, main_filter.c:95-100, with the silos of an
   archive. *)
Definition silo_hdr_id (C : conf) (s : fs) (n off : N) : res bytes :=
  match f_silo s n with
  | None => Abort
  | Some (b, _) =>
      let* h := Rsilo_ReadHeader C b off in
      match h with
      | None => Abort
      | Some (hd, _, _) => Ok (Header_Get_Id hd)
      end
  end.
