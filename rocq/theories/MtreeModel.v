(* Model of /repo/main_stow.c:113-263: how the client reads the listing which
   mtree(1) prints. *)
From Coq Require Import String.
From Verif Require Import Base.
Open Scope list_scope.
Open Scope N_scope.

(* mtree_path, mtree_type_dir and pwd (main_stow.c:114-116); pwd as the names of the
   directories from there up to the topmost, following parent *)
Record mtst := mkMt { m_path : bytes; m_dir : bool; m_pwd : list bytes }.
(* struct subj, main_stow.c:62-69: directory->dirname, filename, digest *)
Definition entry := (bytes * bytes * bytes)%type.

(* isspace(3).  The code passes it a char, which is UB if it is negative; here it is
   a byte. *)
Definition isspace (c : N) : bool := (c =? 32) || (9 <=? c) && (c <=? 13).
Fixpoint skip_space (s : bytes) : bytes :=
  match s with c :: r => if isspace c then skip_space r else s | [] => [] end.

(* What the calls of strsep(&line, " \t") return until there is no more *)
Fixpoint words (s : bytes) : list bytes :=
  match s with
  | [] => [[]]
  | c :: r => if (c =? 32) || (c =? 9) then [] :: words r
              else match words r with w :: l => (c :: w) :: l | [] => [[c]] end
  end.

(* strncmp(word, p, strlen(p)) *)
Definition begins (p w : bytes) : bool := bytes_eqb (firstn (List.length p) w) p.

(* main_stow.c:155-157, SHA256 of zero bytes *)
Definition no_bytes : bytes := str "e3b0c44298fc1c149afbf4c8996fb92427ae41e4649b934ca495991b7852b855".

(* main_stow.c:133-138 *)
Fixpoint set_words (ws : list bytes) (d : bool) : bool :=
  match ws with
  | [] => d
  | w :: r => set_words r (if bytes_eqb w (str "type=dir") then true else if bytes_eqb w (str "type=file") then false else d)
  end.

(* main_stow.c:148-163: dir and digest, or None for return *)
Fixpoint entry_words (ws : list bytes) (dir : bool) (dig : option bytes) : option (bool * option bytes) :=
  match ws with
  | [] => Some (dir, dig)
  | w :: r =>
      if bytes_eqb w (str "type=dir") then entry_words r true dig
      else if bytes_eqb w (str "type=file") then entry_words r false dig
      else if begins (str "type=") w then None
      else if begins (str "sha256digest=") w then
        if bytes_eqb (skipn 13 w) no_bytes then None else entry_words r dir (Some (skipn 13 w))
      else entry_words r dir dig
  end.

(* The text before the last '/', main_stow.c:140-143 *)
Fixpoint before_slash (p : bytes) : option bytes :=
  match p with
  | [] => None
  | c :: r => match before_slash r with Some q => Some (c :: q) | None => if c =? 47 then Some [] else None end
  end.

(* mtree_interpret, main_stow.c:119-192.  strcat(3) beyond the end of the 4096 bytes
   of mtree_path is UB. *)
Definition mtree_interpret (line : bytes) (s : mtst) : res (mtst * list entry) :=
  match words (skip_space line) with
  | [] => Ok (s, [])
  | [] :: _ => Ok (s, [])
  | w0 :: ws =>
      if bytes_eqb w0 (str "/set") then Ok (mkMt (m_path s) (set_words ws (m_dir s)) (m_pwd s), [])
      else if bytes_eqb w0 (str "..") then
        match m_pwd s with
        | [] => Abort
        | _ :: up => Ok (mkMt (match before_slash (m_path s) with Some p => p | None => [] end) (m_dir s) up, [])
        end
      else
        match entry_words ws (m_dir s) None with
        | None => Ok (s, [])
        | Some (false, dig) =>
            match m_pwd s, dig with
            | d :: _, Some dig => Ok (s, [(d, w0, dig)])
            | _, _ => Abort
            end
        | Some (true, _) =>
            let p := m_path s ++ [47] ++ w0 in
            if len p <? 4096 then Ok (mkMt p (m_dir s) (skipn 1 p :: m_pwd s), []) else UB
        end
  end.

(* mtree_process, main_stow.c:194-216, with the line so far in b: the files found and
   what is left in the buffer *)
Fixpoint mtree_process (b text : bytes) (s : mtst) : res (mtst * list entry * bytes) :=
  match text with
  | [] => Ok (s, [], b)
  | c :: r =>
      if c =? 10 then
        match b with
        | [] => mtree_process [] r s
        | _ =>
            if last b 0 =? 92 then mtree_process (removelast b ++ [32; 32]) r s
            else
              let* (s, e) := mtree_interpret b s in
              let* (s, l, b) := mtree_process [] r s in
              Ok (s, e ++ l, b)
        end
      else mtree_process (b ++ [c]) r s
  end.

(* The calls of mtree_in, main_stow.c:218-263: what they put into the list, call by
   call, and what has been written to mtree_tmp.  A call reads as many bytes as it is
   given, up to the size of the buffer; reading nothing is the end.  [inp] is what
   mtree prints, without NUL, and [cut] how much of it is there at a time. *)
Fixpoint mtree_calls (fuel : nat) (cut : nat -> N) (inp buf : bytes) (s : mtst) : res (list (list entry) * bytes) :=
  match fuel with
  | O => Fuel
  | S fuel =>
      let n := N.min (N.max 1 (cut fuel)) (8191 - len buf) in
      match firstn (N.to_nat n) inp with
      | [] => Ok ([], [])
      | got =>
          let* (s, l, b) := mtree_process [] (buf ++ got) s in
          let* (ls, tree) := mtree_calls fuel cut (skipn (N.to_nat n) inp) b s in
          Ok (l :: ls, got ++ tree)
      end
  end.
(* From the start of a job (main_stow.c:737-755): mtree_type_dir is what the job before
   has left there *)
Definition mtree_all (cut : nat -> N) (inp : bytes) (d : bool) : res (list (list entry) * bytes) :=
  mtree_calls (S (List.length inp)) cut inp [] (mkMt [] d []).
