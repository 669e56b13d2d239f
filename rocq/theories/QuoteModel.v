(* Model of VSB_quote_pfx and VSB_quote, vsb.c:504-620, as the calls they make on the buffer. *)
From Coq Require Import String.
From Verif Require Import Base VsbModel VsbSpec.
Open Scope string_scope.
Open Scope list_scope.
Open Scope N_scope.

(* VSB_QUOTE_*, vsb.h:81-86 *)
Definition f_nonl (how : N) : bool := N.testbit how 0.
Definition f_json (how : N) : bool := N.testbit how 1.
Definition f_hex (how : N) : bool := N.testbit how 2.
Definition f_cstr (how : N) : bool := N.testbit how 3.
Definition f_unsafe (how : N) : bool := N.testbit how 4.
Definition f_eschex (how : N) : bool := N.testbit how 5.

(* isgraph( *q ), vsb.c:545 and 601: [q] points to char, which is signed, and an argument below 0
   which is not EOF is undefined *)
Definition isgraph (c : N) : res bool :=
  if (128 <=? c) && (c <? 255) then UB else Ok ((33 <=? c) && (c <=? 126)).

(* %02x and %03o of a byte *)
Definition xdigit (d : N) : N := if d <? 10 then 48 + d else 87 + d.
Definition hex2 (c : N) : bytes := [xdigit (c / 16); xdigit (c mod 16)].
Definition oct3 (c : N) : bytes := [48 + c / 64; 48 + c / 8 mod 8; 48 + c mod 8].

(* vsb.c:544-549 *)
Fixpoint needs_quote (v : bytes) : res bool :=
  match v with
  | [] => Ok false
  | c :: r =>
      let* g := isgraph c in
      if negb g || (c =? 34) || (c =? 92) then Ok true else needs_quote r
  end.

(* the switch, vsb.c:565-608 *)
Definition quote_byte (pfx : bytes) (how c : N) : res (list vop) :=
  if c =? 63 then Ok ((if f_cstr how then [VPutc 92] else []) ++ [VPutc c])
  else if c =? 32 then Ok [VPutc c]
  else if (c =? 92) || (c =? 34) then Ok ((if f_unsafe how then [] else [VPutc 92]) ++ [VPutc c])
  else if c =? 10 then
    Ok [if f_cstr how then VPrintf ([92; 110; 34; 10] ++ pfx ++ [34])
        else if f_nonl how || f_unsafe how then VPrintf [10] else VPrintf [92; 110]]
  else if c =? 13 then Ok [VCat [92; 114]]
  else if c =? 9 then Ok [VCat [92; 116]]
  else if c =? 11 then Ok [VCat [92; 118]]
  else
    let* g := isgraph c in
    Ok [if g then VPutc c
        else if f_eschex how then VPrintf ([92; 120] ++ hex2 c) else VPrintf (92 :: oct3 c)].
(* nl after this byte *)
Definition newline_left (how c : N) : bool := (c =? 10) && negb (f_cstr how) && (f_nonl how || f_unsafe how).
(* vsb.c:561-609 *)
Fixpoint quote_loop (pfx : bytes) (how : N) (nl : bool) (v : bytes) : res (list vop * bool) :=
  match v with
  | [] => Ok ([], nl)
  | c :: r =>
      let* o := quote_byte pfx how c in
      let* x := quote_loop pfx how (newline_left how c) r in
      Ok ((if nl then [VCat pfx] else []) ++ o ++ fst x, snd x)
  end.

(* up to the NUL; without one strlen(3) goes on behind the end *)
Fixpoint strlen (v : bytes) : res bytes :=
  match v with
  | [] => UB
  | c :: r => if c =? 0 then Ok [] else let* x := strlen r in Ok (c :: x)
  end.

(* VSB_quote_pfx, vsb.c:508-614; [n]: the length given, None for -1 *)
Definition VSB_quote_pfx (pfx mem : bytes) (n : option N) (how : N) : res (list vop) :=
  let* v := match n with
            | None => strlen mem
            | Some n => if n <=? len mem then Ok (firstn (N.to_nat n) mem) else UB
            end in
  match v with
  | [] => Ok (if f_cstr how then [VPrintf (pfx ++ [34; 34])] else [])
  | _ =>
      if f_hex how then
        Ok ([VCat pfx; VCat (str "0x")] ++
            (if forallb (N.eqb 0) v && (4 <? len v) then [VCat (str "0...0")]
             else map (fun c => VPrintf (hex2 c)) v))
      else
        let* quote := needs_quote v in
        if negb quote && negb (f_json how || f_cstr how) then
          Ok ([VCat pfx; VBcat v] ++
              (if (f_unsafe how || f_nonl how) && negb (last v 0 =? 10) then [VPutc 10] else []))
        else
          let* x := quote_loop pfx how false v in
          Ok ([VCat pfx] ++ (if f_cstr how then [VPutc 34] else []) ++ fst x ++
              (if f_cstr how then [VPutc 34] else []) ++
              (if (f_nonl how || f_unsafe how) && negb (snd x) then [VPutc 10] else []))
  end.

(* VSB_quote, vsb.c:616-620 *)
Definition VSB_quote (mem : bytes) (n : option N) (how : N) : res (list vop) := VSB_quote_pfx [] mem n how.
