(* Model of /repo/vlu.c: assembling a byte stream into lines. *)
From Verif Require Import Base.
Open Scope list_scope.
Open Scope N_scope.

(* struct vlu, vlu.c:46-54: [v_bufl] is the usable buffer size, [v_buf] the
   first bufp bytes of the buffer. *)
Record vlu := mkV { v_bufl : N; v_buf : bytes }.

(* VLU_New, vlu.c:56-75; BUFSIZ is 1024.  bufsize 1 gives a buffer which never
   can hold anything. *)
Definition VLU_New (bufsize : N) : vlu :=
  mkV ((if bufsize =? 0 then 1024 else bufsize) - 1) [].

(* VLU_Reset, vlu.c:77-82 *)
Definition VLU_Reset (l : vlu) : vlu := mkV (v_bufl l) [].

Definition is_eol (c : N) : bool := (c =? 10) || (c =? 13).

(* The inner loop, vlu.c:102-107: the text in front of the first CR or NL and
   the rest behind it; None if the string ends first (NUL or end of buffer). *)
Fixpoint find_eol (p : bytes) : option (bytes * bytes) :=
  match p with
  | [] => None
  | c :: r =>
      if c =? 0 then None
      else if is_eol c then Some ([], r)
      else match find_eol r with
           | Some (a, b) => Some (c :: a, b)
           | None => None
           end
  end.

(* the C string at p *)
Fixpoint cstr (p : bytes) : bytes :=
  match p with
  | [] => []
  | c :: r => if c =? 0 then [] else c :: cstr r
  end.

Section Process.
Context {S : Type}.
(* the callback: new state and return value *)
Variable func : S -> bytes -> S * Z.

(* LineUpProcess, vlu.c:94-123.  [done] is what has been gone through, with
   the line ends overwritten; it stays in the buffer if the callback says
   stop. *)
Fixpoint process_loop (fuel : nat) (bufl : N) (s : S) (done p : bytes) : res (S * vlu * Z) :=
  match fuel with
  | O => Fuel
  | Datatypes.S f =>
      match p with
      | [] => Ok (s, mkV bufl [], 0%Z)
      | c :: _ =>
          if c =? 0 then Ok (s, mkV bufl [], 0%Z)
          else match find_eol p with
               | None => Ok (s, mkV bufl (cstr p), 0%Z)
               | Some (line, q) =>
                   let '(s', i) := func s line in
                   if (i =? 0)%Z then process_loop f bufl s' (done ++ line ++ [0]) q
                   else Ok (s', mkV bufl (done ++ line ++ 0 :: q), i)
               end
      end
  end.
Definition LineUpProcess (l : vlu) (s : S) : res (S * vlu * Z) :=
  process_loop (Datatypes.S (length (v_buf l))) (v_bufl l) s [] (v_buf l).

(* VLU_Feed, vlu.c:155-177; assert(len > 0). *)
Fixpoint feed_loop (fuel : nat) (l : vlu) (s : S) (ptr : bytes) : res (S * vlu * Z) :=
  match ptr with
  | [] => Ok (s, l, 0%Z)
  | _ =>
      match fuel with
      | O => Fuel
      | Datatypes.S f =>
          let u := N.to_nat (N.min (len ptr) (v_bufl l - len (v_buf l))) in
          let* (r, i) := LineUpProcess (mkV (v_bufl l) (v_buf l ++ firstn u ptr)) s in
          let '(s', l') := r in
          if (i =? 0)%Z then feed_loop f l' s' (skipn u ptr) else Ok (s', l', i)
      end
  end.
Definition VLU_Feed (fuel : nat) (l : vlu) (s : S) (ptr : bytes) : res (S * vlu * Z) :=
  let* _ := guard (0 <? len ptr) in feed_loop fuel l s ptr.

(* VLU_Fd, vlu.c:125-138.  [inp] is what the descriptor still has, [cut] the
   most this read(2) delivers (at least one byte if there is one and there is
   room).  A failing read (return -1) is not modelled. *)
Definition VLU_Fd (l : vlu) (s : S) (cut : N) (inp : bytes) : res (S * vlu * Z * bytes) :=
  let u := N.to_nat (N.min (N.max 1 cut) (v_bufl l - len (v_buf l))) in
  match firstn u inp with
  | [] => Ok (s, l, (-2)%Z, inp)
  | b =>
      let* (r, i) := LineUpProcess (mkV (v_bufl l) (v_buf l ++ b)) s in
      let '(s', l') := r in
      Ok (s', l', i, skipn u inp)
  end.

(* VLU_File, vlu.c:140-153; also the loop of calls which main_stevedore.c:85-
   115 makes from its event loop.  [cut n] limits the reads. *)
Fixpoint file_loop (fuel : nat) (cut : nat -> N) (l : vlu) (s : S) (inp : bytes) : res (S * Z) :=
  match fuel with
  | O => Fuel
  | Datatypes.S f =>
      let* (r, inp') := VLU_Fd l s (cut f) inp in
      let '(s', l', i) := r in
      if (i =? 0)%Z then file_loop f cut l' s' inp' else Ok (s', i)
  end.
Definition VLU_File (fuel : nat) (cut : nat -> N) (bufsize : N) (s : S) (inp : bytes) : res (S * Z) :=
  file_loop fuel cut (VLU_New bufsize) s inp.
End Process.
