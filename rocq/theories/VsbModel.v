(* Model of /repo/vsb.c: string buffers.  Sizes are taken to stay below
   SSIZE_MAX. *)
From Verif Require Import Base.
Open Scope list_scope.
Open Scope N_scope.

(* struct vsb, vsb.h:38-60: [s_mem] is the memory at s_buf, s_size bytes of
   it; s_error as a flag. *)
Record vsb := mkVsb {
  s_mem : bytes; s_len : N; s_auto : bool; s_fin : bool; s_error : bool; s_indent : Z }.
Definition s_size (s : vsb) : N := len (s_mem s).

(* VSB_FREESPACE, vsb.c:59 *)
Definition freespace (s : vsb) : N := s_size s - (s_len s + 1).

Definition with_mem (s : vsb) (m : bytes) (l : N) : vsb :=
  mkVsb m l (s_auto s) (s_fin s) (s_error s) (s_indent s).
Definition with_error (s : vsb) : vsb :=
  mkVsb (s_mem s) (s_len s) (s_auto s) (s_fin s) true (s_indent s).

(* A store to memory; outside the allocation it is UB. *)
Definition wr (m : bytes) (off : N) (d : bytes) : res bytes :=
  if off + len d <=? len m
  then Ok (firstn (N.to_nat off) m ++ d ++ skipn (N.to_nat off + length d) m)
  else UB.

(* VSB_extendsize, vsb.c:119-134.  The loop doubles at most 8 times. *)
Fixpoint double_to (fuel : nat) (newsize size : N) : N :=
  match fuel with
  | O => newsize
  | S f => if newsize <? size then double_to f (newsize * 2) size else newsize
  end.
Definition VSB_extendsize (size : N) : N :=
  if size <? 4096 then double_to 8 16 size
  else N.ldiff (size + 4095) 4095.

Section Vsb.
(* Whether malloc(3)/realloc(3) of that size succeeds, and what new memory
   contains. *)
Variable alloc : N -> bool.
Variable junk : N -> N.
Definition fresh (n : N) : bytes := map (fun k => junk (N.of_nat k)) (seq 0 (N.to_nat n)).

(* VSB_extend, vsb.c:139-161 *)
Definition VSB_extend (s : vsb) (addlen : N) : option vsb :=
  if negb (s_auto s) then None
  else
    let newsize := VSB_extendsize (s_size s + addlen) in
    if alloc newsize then Some (with_mem s (s_mem s ++ fresh (newsize - s_size s)) (s_len s))
    else None.

(* _vsb_indent, vsb.c:163-176 *)
Definition vsb_indent (s : vsb) : res vsb :=
  let skip := (s_indent s =? 0)%Z || s_error s ||
    ((0 <? s_len s) && negb (nth (N.to_nat (s_len s - 1)) (s_mem s) 0 =? 10)) in
  if skip then Ok s
  else
    let ind := Z.to_N (s_indent s) in
    let put s := let* m := wr (s_mem s) (s_len s) (repeat 32 (N.to_nat ind)) in
                 Ok (with_mem s m (s_len s + ind)) in
    if freespace s <=? ind then
      match VSB_extend s ind with
      | None => Ok (with_error s)
      | Some s' => put s'
      end
    else put s.

(* assert_VSB_integrity and assert_VSB_state(s, 0), vsb.c:80-110 *)
Definition check (s : vsb) : res unit :=
  let* _ := guard (s_len s <? s_size s) in guard (negb (s_fin s)).

(* VSB_put_byte, vsb.c:261-278 *)
Definition VSB_put_byte (s : vsb) (c : N) : res vsb :=
  let* _ := check s in
  if s_error s then Ok s
  else
    let* s := vsb_indent s in
    let put s := let* m := wr (s_mem s) (s_len s) [c] in Ok (with_mem s m (s_len s + 1)) in
    if freespace s =? 0 then
      match VSB_extend s 1 with
      | None => Ok (with_error s)
      | Some s' => if s_error s' then Ok s' else put s'
      end
    else put s.

(* VSB_bcat, vsb.c:283-304 *)
Definition VSB_bcat (s : vsb) (d : bytes) : res vsb :=
  let* _ := check s in
  if s_error s then Ok s
  else if len d =? 0 then Ok s
  else
    let* s := vsb_indent s in
    let put s := let* m := wr (s_mem s) (s_len s) d in Ok (with_mem s m (s_len s + len d)) in
    if freespace s <? len d then
      match VSB_extend s (len d - freespace s) with
      | None => Ok (with_error s)
      | Some s' => if s_error s' then Ok s' else put s'
      end
    else put s.

(* VSB_cat, vsb.c:309-327 *)
Fixpoint cat_loop (s : vsb) (str : bytes) : res vsb :=
  match str with
  | [] => Ok s
  | c :: r =>
      let* s := VSB_put_byte s c in
      if s_error s then Ok s else cat_loop s r
  end.
Definition VSB_cat (s : vsb) (str : bytes) : res vsb :=
  let* _ := check s in
  if s_error s then Ok s else cat_loop s str.

(* vsnprintf(3) of a text into the free space: truncated and terminated *)
Definition snprintf (s : vsb) (text : bytes) : res vsb :=
  let n := N.min (len text) (freespace s) in
  let* m := wr (s_mem s) (s_len s) (firstn (N.to_nat n) text ++ [0]) in
  Ok (with_mem s m (s_len s)).

(* VSB_vprintf, vsb.c:332-392; [text] is what the format and arguments give
   (a failing vsnprintf is not modelled).  The loop ends after its second
   round: then there is room. *)
Fixpoint printf_loop (fuel : nat) (s : vsb) (text : bytes) : res vsb :=
  match fuel with
  | O => Fuel
  | S f =>
      let* s := snprintf s text in
      if freespace s <? len text then
        match VSB_extend s (len text - freespace s) with
        | Some s' => printf_loop f s' text
        | None => Ok s
        end
      else Ok s
  end.
Definition VSB_printf (s : vsb) (text : bytes) : res vsb :=
  let* _ := check s in
  if s_error s then Ok s
  else
    let* s := vsb_indent s in
    let* s := printf_loop 2 s text in
    let n := N.min (len text) (freespace s) in
    let s := with_mem s (s_mem s) (s_len s + n) in
    let s := if negb (s_len s <? s_size s - 1) && negb (s_auto s) then with_error s else s in
    let* _ := guard (s_len s <? s_size s) in
    Ok s.

(* VSB_clear, vsb.c:241-252 *)
Definition VSB_clear (s : vsb) : res vsb :=
  let* _ := guard (s_len s <? s_size s) in
  Ok (mkVsb (s_mem s) 0 (s_auto s) false false 0).

(* VSB_indent, vsb.c:618-627 *)
Definition VSB_indent (s : vsb) (i : Z) : res vsb :=
  let* _ := guard (s_len s <? s_size s) in
  if (s_indent s + i <? 0)%Z then Ok (with_error s)
  else Ok (mkVsb (s_mem s) (s_len s) (s_auto s) (s_fin s) (s_error s) (s_indent s + i)).

(* VSB_finish, vsb.c:435-450 *)
Definition VSB_finish (s : vsb) : res vsb :=
  let* _ := check s in
  let* m := wr (s_mem s) (s_len s) [0] in
  Ok (mkVsb m (s_len s) (s_auto s) true (s_error s) (s_indent s)).

(* VSB_data, VSB_len, vsb.c:452-477: the data up to the length; None: -1 *)
Definition VSB_data (s : vsb) : res bytes :=
  let* _ := guard (s_len s <? s_size s) in
  let* _ := guard (s_fin s) in
  Ok (s_mem s).
Definition VSB_len (s : vsb) : res (option N) :=
  let* _ := guard (s_len s <? s_size s) in
  Ok (if s_error s then None else Some (s_len s)).

(* VSB_new, vsb.c:182-236: VSB_new_auto(), and VSB_new(s, buf, length,
   VSB_FIXEDLEN).  None: NULL. *)
Definition VSB_new_auto : option vsb :=
  let n := VSB_extendsize 0 in
  if alloc n then Some (mkVsb (fresh n) 0 true false false 0) else None.
Definition VSB_new_fixed (buf : bytes) : res vsb :=
  let* _ := guard (1 <? len buf) in
  Ok (mkVsb buf 0 false false false 0).
End Vsb.
