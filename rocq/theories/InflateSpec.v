(* Specification: a decoder for RFC 1951 (deflate) and RFC 1952 (gzip), written
   from the RFCs, and the CRC-32 of RFC 1952.  It is not a model of any code in
   /repo; it says what "decompresses to" means. *)
From Verif Require Import Base.
Open Scope N_scope.

Definition bits := list bool.
Definition is_bytes (d : bytes) : Prop := Forall (fun x => x < 256) d.

(* RFC 1951, 3.1.1: bytes are read starting with the least significant bit *)
Definition byte_bits (b : N) : bits := map (fun i => N.testbit b i) [0; 1; 2; 3; 4; 5; 6; 7].
Definition to_bits (d : bytes) : bits := flat_map byte_bits d.

Fixpoint bits_val (b : bits) : N :=
  match b with
  | [] => 0
  | x :: r => (if x then 1 else 0) + 2 * bits_val r
  end.

Fixpoint take (n : nat) (b : bits) : option (bits * bits) :=
  match n with
  | O => Some ([], b)
  | S m => match b with
           | [] => None
           | x :: r => match take m r with Some (a, r') => Some (x :: a, r') | None => None end
           end
  end.

(* an integer of n bits *)
Definition getn (n : nat) (b : bits) : option (N * bits) :=
  match take n b with Some (a, r) => Some (bits_val a, r) | None => None end.

(* go to the next byte boundary: the input is a whole number of bytes, so the
   number of bits left says where we are *)
Definition align (b : bits) : bits := skipn (Nat.modulo (List.length b) 8) b.

Definition getbyte (b : bits) : option (N * bits) := getn 8 b.

Fixpoint getbytes (n : nat) (b : bits) : option (bytes * bits) :=
  match n with
  | O => Some ([], b)
  | S m => match getbyte b with
           | Some (x, r) => match getbytes m r with Some (l, r') => Some (x :: l, r') | None => None end
           | None => None
           end
  end.

(* ------------------------------------------------------------------ *)
(* Huffman codes, RFC 1951, 3.2.2: canonical codes from code lengths.    *)

Definition count_len (lens : list N) (l : N) : N := len (filter (fun x => x =? l) lens).

(* symbols in the order of their codes *)
Fixpoint syms_of (i : N) (l : N) (lens : list N) : list N :=
  match lens with
  | [] => []
  | x :: r => if x =? l then i :: syms_of (i + 1) l r else syms_of (i + 1) l r
  end.

Definition lengths_1_15 : list N := [1; 2; 3; 4; 5; 6; 7; 8; 9; 10; 11; 12; 13; 14; 15].

Record huff := mkHuff { hu_counts : list N; hu_syms : list N }.

(* no more codes than there is room for *)
Definition kraft (lens : list N) : N :=
  fold_right N.add 0 (map (fun l => count_len lens l * 2 ^ (15 - l)) lengths_1_15).

Definition mk_huff (lens : list N) : option huff :=
  if kraft lens <=? 2 ^ 15
  then Some (mkHuff (map (count_len lens) lengths_1_15)
                    (flat_map (fun l => syms_of 0 l lens) lengths_1_15))
  else None.

(* one symbol; codes are packed starting with their most significant bit *)
Fixpoint huff_dec (counts : list N) (syms : list N) (code first index : N) (b : bits)
  : option (N * bits) :=
  match counts with
  | [] => None
  | c :: counts' =>
      match b with
      | [] => None
      | x :: r =>
          let code := code + (if x then 1 else 0) in
          if code <? first + c
          then match nth_error syms (N.to_nat (index + (code - first))) with
               | Some s => Some (s, r)
               | None => None
               end
          else huff_dec counts' syms (2 * code) (2 * (first + c)) (index + c) r
      end
  end.

Definition getsym (h : huff) (b : bits) : option (N * bits) :=
  huff_dec (hu_counts h) (hu_syms h) 0 0 0 b.

(* ------------------------------------------------------------------ *)
(* RFC 1951, 3.2.5: length and distance codes                           *)

Definition len_base : list N :=
  [3; 4; 5; 6; 7; 8; 9; 10; 11; 13; 15; 17; 19; 23; 27; 31; 35; 43; 51; 59; 67; 83; 99; 115;
   131; 163; 195; 227; 258].
Definition len_extra : list nat :=
  [0; 0; 0; 0; 0; 0; 0; 0; 1; 1; 1; 1; 2; 2; 2; 2; 3; 3; 3; 3; 4; 4; 4; 4; 5; 5; 5; 5; 0]%nat.
Definition dist_base : list N :=
  [1; 2; 3; 4; 5; 7; 9; 13; 17; 25; 33; 49; 65; 97; 129; 193; 257; 385; 513; 769; 1025; 1537;
   2049; 3073; 4097; 6145; 8193; 12289; 16385; 24577].
Definition dist_extra : list nat :=
  [0; 0; 0; 0; 1; 1; 2; 2; 3; 3; 4; 4; 5; 5; 6; 6; 7; 7; 8; 8; 9; 9; 10; 10; 11; 11; 12; 12;
   13; 13]%nat.

(* what has been produced so far, last byte first *)
Definition window := list N.

(* copy n bytes from distance d *)
Fixpoint copy (n : nat) (d : N) (w : window) : option window :=
  match n with
  | O => Some w
  | S m => match nth_error w (N.to_nat (d - 1)) with
           | Some x => copy m d (x :: w)
           | None => None
           end
  end.

Definition get_match (hd : huff) (s : N) (w : window) (b : bits) : option (window * bits) :=
  let i := N.to_nat (s - 257) in
  match nth_error len_base i, nth_error len_extra i with
  | Some lb, Some le =>
      match getn le b with
      | Some (x, b) =>
          match getsym hd b with
          | Some (ds, b) =>
              match nth_error dist_base (N.to_nat ds), nth_error dist_extra (N.to_nat ds) with
              | Some db, Some de =>
                  match getn de b with
                  | Some (y, b) =>
                      match copy (N.to_nat (lb + x)) (db + y) w with
                      | Some w => Some (w, b)
                      | None => None
                      end
                  | None => None
                  end
              | _, _ => None
              end
          | None => None
          end
      | None => None
      end
  | _, _ => None
  end.

(* the symbols of a block up to the end-of-block symbol; the first argument
   bounds the number of symbols *)
Fixpoint inf_codes (fuel : nat) (hl hd : huff) (w : window) (b : bits) : option (window * bits) :=
  match fuel with
  | O => None
  | S fu =>
      match getsym hl b with
      | None => None
      | Some (s, b) =>
          if s <? 256 then inf_codes fu hl hd (s :: w) b
          else if s =? 256 then Some (w, b)
          else match get_match hd s w b with
               | Some (w, b) => inf_codes fu hl hd w b
               | None => None
               end
      end
  end.

(* RFC 1951, 3.2.4 *)
Definition inf_stored (w : window) (b : bits) : option (window * bits) :=
  let b := align b in
  match getbytes 4 b with
  | Some ([l0; l1; n0; n1], b) =>
      if (l0 + n0 =? 255) && (l1 + n1 =? 255)
      then match getbytes (N.to_nat (l0 + 256 * l1)) b with
           | Some (d, b) => Some (rev d ++ w, b)
           | None => None
           end
      else None
  | _ => None
  end.

(* RFC 1951, 3.2.6 *)
Definition fixed_lens : list N :=
  repeat 8 144 ++ repeat 9 112 ++ repeat 7 24 ++ repeat 8 8.
Definition fixed_dist : list N := repeat 5 30.

(* RFC 1951, 3.2.7 *)
Definition clen_order : list nat := [16; 17; 18; 0; 8; 7; 9; 6; 10; 5; 11; 4; 12; 3; 13; 2; 14; 1; 15]%nat.

Fixpoint get_clens (n : nat) (b : bits) : option (list N * bits) :=
  match n with
  | O => Some ([], b)
  | S m => match getn 3 b with
           | Some (x, b) => match get_clens m b with Some (l, b) => Some (x :: l, b) | None => None end
           | None => None
           end
  end.

Definition place_clens (l : list N) : list N :=
  map (fun i => fold_right (fun p a => if Nat.eqb (fst p) i then snd p else a) 0 (combine clen_order l))
      (seq 0 19).

(* code lengths of the two alphabets, run length coded; acc is reversed *)
Fixpoint get_lens (fuel : nat) (h : huff) (n : nat) (acc : list N) (b : bits) : option (list N * bits) :=
  match fuel with
  | O => None
  | S fu =>
      if Nat.eqb (List.length acc) n then Some (rev acc, b)
      else if Nat.ltb n (List.length acc) then None
      else match getsym h b with
           | None => None
           | Some (s, b) =>
               if s <? 16 then get_lens fu h n (s :: acc) b
               else if s =? 16 then
                 match acc, getn 2 b with
                 | p :: _, Some (x, b) => get_lens fu h n (repeat p (N.to_nat (3 + x)) ++ acc) b
                 | _, _ => None
                 end
               else if s =? 17 then
                 match getn 3 b with
                 | Some (x, b) => get_lens fu h n (repeat 0 (N.to_nat (3 + x)) ++ acc) b
                 | None => None
                 end
               else match getn 7 b with
                    | Some (x, b) => get_lens fu h n (repeat 0 (N.to_nat (11 + x)) ++ acc) b
                    | None => None
                    end
           end
  end.

Definition get_tables (b : bits) : option (huff * huff * bits) :=
  match getn 5 b with
  | Some (hlit, b) =>
  match getn 5 b with
  | Some (hdist, b) =>
  match getn 4 b with
  | Some (hclen, b) =>
  match get_clens (N.to_nat (hclen + 4)) b with
  | Some (cl, b) =>
  match mk_huff (place_clens cl) with
  | Some hc =>
      let nl := N.to_nat (hlit + 257) in
      let nd := N.to_nat (hdist + 1) in
      match get_lens (S (nl + nd)) hc (nl + nd) [] b with
      | Some (ls, b) =>
          match mk_huff (firstn nl ls), mk_huff (skipn nl ls) with
          | Some hl, Some hd => Some (hl, hd, b)
          | _, _ => None
          end
      | None => None
      end
  | None => None
  end
  | None => None
  end
  | None => None
  end
  | None => None
  end
  | None => None
  end.

(* One block: was it the last one, output so far, rest. *)
Definition inf_block (w : window) (b : bits) : option (bool * window * bits) :=
  match getn 1 b with
  | None => None
  | Some (fin, b) =>
      match getn 2 b with
      | None => None
      | Some (ty, b) =>
          let r :=
            if ty =? 0 then inf_stored w b
            else if ty =? 1 then
              match mk_huff fixed_lens, mk_huff fixed_dist with
              | Some hl, Some hd => inf_codes (S (List.length b)) hl hd w b
              | _, _ => None
              end
            else if ty =? 2 then
              match get_tables b with
              | Some (hl, hd, b) => inf_codes (S (List.length b)) hl hd w b
              | None => None
              end
            else None in
          match r with
          | Some (w, b) => Some (fin =? 1, w, b)
          | None => None
          end
      end
  end.

(* Blocks up to the last one. *)
Fixpoint inf_blocks (fuel : nat) (w : window) (b : bits) : option (window * bits) :=
  match fuel with
  | O => None
  | S fu =>
      match inf_block w b with
      | None => None
      | Some (fin, w, b) => if fin : bool then Some (w, b) else inf_blocks fu w b
      end
  end.

(* Any number of blocks none of which is the last one. *)
Inductive blocks : window -> bits -> window -> bits -> Prop :=
| blocks_nil w b : blocks w b w b
| blocks_cons w b w1 b1 w2 b2 :
    inf_block w b = Some (false, w1, b1) -> blocks w1 b1 w2 b2 -> blocks w b w2 b2.

(* ------------------------------------------------------------------ *)
(* CRC-32, RFC 1952 section 8, without a table                          *)

Definition crc_step (c : N) : N :=
  if N.testbit c 0 then N.lxor (N.div2 c) 3988292384 else N.div2 c.
Definition crc_byte (c b : N) : N := Nat.iter 8 crc_step (N.lxor c b).
Definition crc_raw (c : N) (d : bytes) : N := fold_left crc_byte d c.
Definition crc32 (d : bytes) : N := N.lxor (crc_raw 4294967295 d) 4294967295.

(* ------------------------------------------------------------------ *)
(* gzip members, RFC 1952 section 2.3: with or without an extra field;
   other optional parts are not used here.                              *)

(* data behind the header *)
Definition gz_skip_head (d : bytes) : option bytes :=
  match d with
  | 31 :: 139 :: 8 :: fl :: _ :: _ :: _ :: _ :: _ :: _ :: r =>
      if fl =? 0 then Some r
      else if fl =? 4 then
        match r with
        | x0 :: x1 :: r => let n := N.to_nat (x0 + 256 * x1) in
            if Nat.leb n (List.length r) then Some (skipn n r) else None
        | _ => None
        end
      else None
  | _ => None
  end.

(* A member in front of other data: what it decompresses to, and the rest. *)
Definition gunzip (d : bytes) : option (bytes * bytes) :=
  match gz_skip_head d with
  | None => None
  | Some r =>
      let b := to_bits r in
      match inf_blocks (S (List.length b)) [] b with
      | None => None
      | Some (w, b) =>
          let out := rev w in
          let rest := skipn (List.length r - List.length b / 8)%nat r in
          let crc := firstn 4 rest in
          let isz := firstn 4 (skipn 4 rest) in
          if (len rest <? 8) || negb (le_dec crc =? crc32 out) || negb (le_dec isz =? len out mod 2 ^ 32)
          then None
          else Some (out, skipn 8 rest)
      end
  end.
