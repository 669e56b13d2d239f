(* The command line of mksilo, main_mksilo.c. *)
From Coq Require Import String.
From Verif Require Import Base ProgModel StoreModel CmdModel.
Open Scope string_scope.
Open Scope list_scope.
Open Scope N_scope.

(* ------------------------------------------------------------------ *)
(* strtoul(3) with base 0, as ISO C has it (unsigned long has 64 bits)   *)

Definition is_blank (c : N) : bool := (c =? 32) || (9 <=? c) && (c <=? 13).
Fixpoint skip_blank (l : bytes) : bytes :=
  match l with [] => [] | c :: r => if is_blank c then skip_blank r else l end.

Definition digit (c : N) : option N :=
  if (48 <=? c) && (c <=? 57) then Some (c - 48)
  else if (97 <=? c) && (c <=? 122) then Some (c - 87)
  else if (65 <=? c) && (c <=? 90) then Some (c - 55)
  else None.
Definition digit_in (b c : N) : option N :=
  match digit c with Some d => if d <? b then Some d else None | None => None end.

(* up to the first character which is not a digit *)
Fixpoint digits (b acc : N) (l : bytes) : N :=
  match l with
  | [] => acc
  | c :: r => match digit_in b c with Some d => digits b (acc * b + d) r | None => acc end
  end.

Definition unsigned_part (l : bytes) : N :=
  match l with
  | c :: r =>
      if c =? 48 then
        match r with
        | x :: y :: r' =>
            if ((x =? 120) || (x =? 88)) && match digit_in 16 y with Some _ => true | None => false end
            then digits 16 0 (y :: r') else digits 8 0 r
        | _ => digits 8 0 r
        end
      else digits 10 0 l
  | [] => 0
  end.

Definition strtoul (l : bytes) : N :=
  let l := skip_blank l in
  let neg := match l with c :: _ => c =? 45 | [] => false end in
  let l := match l with c :: r => if (c =? 45) || (c =? 43) then r else l | [] => [] end in
  let v := unsigned_part l in
  if 2 ^ 64 <=? v then 2 ^ 64 - 1
  else if neg then (2 ^ 64 - v) mod 2 ^ 64 else v.

(* ------------------------------------------------------------------ *)
(* main_mksilo, main_mksilo.c:51-89; args are those behind argv[0].  All options end in
   exit(1), 64-72; what strtoul returns is made an unsigned of 32 bits, 80. *)
Definition mksilo_cmd (C : conf) (L : zlib) (args : list bytes) : prog unit :=
  let (ev, ops) := getopt "h" args in
  match ev, ops with
  | [], t :: _ => main_mksilo C L (strtoul t mod 2 ^ 32)
  | _, _ => Die DExit
  end.
