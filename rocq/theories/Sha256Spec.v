(* SHA-256, as in FIPS 180-4; used where the digest of a given text matters.  The
   library which the code calls is not modelled otherwise. *)
From Coq Require Import String.
From Verif Require Import Base.
Open Scope list_scope.
Open Scope N_scope.

Definition w32 (x : N) : N := N.land x 0xffffffff.
Definition rotr (n x : N) : N := w32 (N.lor (N.shiftr x n) (N.shiftl x (32 - n))).
Definition K256 : list N :=
  [0x428a2f98; 0x71374491; 0xb5c0fbcf; 0xe9b5dba5; 0x3956c25b; 0x59f111f1; 0x923f82a4; 0xab1c5ed5;
   0xd807aa98; 0x12835b01; 0x243185be; 0x550c7dc3; 0x72be5d74; 0x80deb1fe; 0x9bdc06a7; 0xc19bf174;
   0xe49b69c1; 0xefbe4786; 0x0fc19dc6; 0x240ca1cc; 0x2de92c6f; 0x4a7484aa; 0x5cb0a9dc; 0x76f988da;
   0x983e5152; 0xa831c66d; 0xb00327c8; 0xbf597fc7; 0xc6e00bf3; 0xd5a79147; 0x06ca6351; 0x14292967;
   0x27b70a85; 0x2e1b2138; 0x4d2c6dfc; 0x53380d13; 0x650a7354; 0x766a0abb; 0x81c2c92e; 0x92722c85;
   0xa2bfe8a1; 0xa81a664b; 0xc24b8b70; 0xc76c51a3; 0xd192e819; 0xd6990624; 0xf40e3585; 0x106aa070;
   0x19a4c116; 0x1e376c08; 0x2748774c; 0x34b0bcb5; 0x391c0cb3; 0x4ed8aa4a; 0x5b9cca4f; 0x682e6ff3;
   0x748f82ee; 0x78a5636f; 0x84c87814; 0x8cc70208; 0x90befffa; 0xa4506ceb; 0xbef9a3f7; 0xc67178f2].
Definition H256 : list N :=
  [0x6a09e667; 0xbb67ae85; 0x3c6ef372; 0xa54ff53a; 0x510e527f; 0x9b05688c; 0x1f83d9ab; 0x5be0cd19].

(* the message schedule; the last sixteen words, latest first *)
Fixpoint schedule (n : nat) (w : list N) : list N :=
  match n with
  | O => []
  | S n =>
      let w15 := nth 14 w 0 in let w2 := nth 1 w 0 in
      let s0 := N.lxor (N.lxor (rotr 7 w15) (rotr 18 w15)) (N.shiftr w15 3) in
      let s1 := N.lxor (N.lxor (rotr 17 w2) (rotr 19 w2)) (N.shiftr w2 10) in
      let x := w32 (nth 15 w 0 + s0 + nth 6 w 0 + s1) in
      x :: schedule n (x :: firstn 15 w)
  end.
Definition round (h : list N) (kw : N * N) : list N :=
  match h with
  | [a; b; c; d; e; f; g; h] =>
      let s1 := N.lxor (N.lxor (rotr 6 e) (rotr 11 e)) (rotr 25 e) in
      let ch := N.lxor (N.land e f) (N.land (N.lxor e 0xffffffff) g) in
      let t1 := h + s1 + ch + fst kw + snd kw in
      let s0 := N.lxor (N.lxor (rotr 2 a) (rotr 13 a)) (rotr 22 a) in
      let maj := N.lxor (N.lxor (N.land a b) (N.land a c)) (N.land b c) in
      [w32 (t1 + s0 + maj); a; b; c; w32 (d + t1); e; f; g]
  | _ => h
  end.
Fixpoint be_words (n : nat) (b : bytes) : list N :=
  match n with O => [] | S n => be_dec (firstn 4 b) :: be_words n (skipn 4 b) end.
Definition block256 (h : list N) (b : bytes) : list N :=
  let w := be_words 16 b in
  let all := w ++ schedule 48 (rev w) in
  map (fun p => w32 (fst p + snd p)) (combine h (fold_left round (combine K256 all) h)).
Fixpoint blocks256 (n : nat) (h : list N) (b : bytes) : list N :=
  match n with O => h | S n => blocks256 n (block256 h (firstn 64 b)) (skipn 64 b) end.
Definition pad256 (m : bytes) : bytes :=
  m ++ [128] ++ repeat 0 (N.to_nat ((119 - len m mod 64) mod 64)) ++ be_enc 8 (8 * len m).
Definition sha256 (m : bytes) : bytes :=
  let p := pad256 m in flat_map (be_enc 4) (blocks256 (List.length p / 64) H256 p).
Definition hexdigit (v : N) : N := if v <? 10 then 48 + v else 87 + v.
Definition sha256_hex (m : bytes) : bytes := flat_map (fun c => [hexdigit (c / 16); hexdigit (c mod 16)]) (sha256 m).

(* the examples of the standard *)
Example sha256_abc : sha256_hex (str "abc") = str "ba7816bf8f01cfea414140de5dae2223b00361a396177a9cb410ff61f20015ad".
Proof. vm_compute. reflexivity. Qed.
Example sha256_two : sha256_hex (str "abcdbcdecdefdefgefghfghighijhijkijkljklmklmnlmnomnopnopq") =
  str "248d6a61d20638b8e5c026930c3e6039a33ce45964ff2167f6ecedd419db06c1".
Proof. vm_compute. reflexivity. Qed.
