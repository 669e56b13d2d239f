(* A toy zlib and libmd, to show that what is assumed of the real ones can be
   met, and to run the model on examples.  Not a model of any code. *)
From Coq Require Import String.
From Verif Require Import Base InflateSpec GzipModel ProgModel StoreModel.
Open Scope string_scope.
Open Scope list_scope.
Open Scope N_scope.

(* a stored block, not the last one, of less than 2^16 bytes *)
Definition sblock (d : bytes) : bytes :=
  [0; len d mod 256; len d / 256; 255 - len d mod 256; 255 - len d / 256] ++ d.

(* 9805 zeros: a zero, 38 times "258 bytes from distance 1", and an empty stored
   block *)
Definition zlen : N := 9805.
Definition zblock : bytes :=
  [98; 24; 5; 163; 96; 20; 140; 130; 81; 48; 10; 70; 193; 40; 24; 5; 163; 96; 20; 140; 130;
   81; 48; 10; 70; 193; 40; 24; 5; 163; 96; 20; 140; 130; 81; 48; 10; 70; 193; 40; 24; 5;
   163; 96; 20; 140; 130; 81; 48; 10; 70; 193; 40; 24; 5; 163; 96; 20; 140; 130; 81; 48; 10;
   0; 0; 0; 0; 255; 255].

Record toyz := mkToy { t_q : bytes; t_dat : bytes; t_end : bool }.

Definition toy_tail (d : bytes) : bytes := [3; 0] ++ le_enc 4 (crc32 d) ++ le_enc 4 (len d mod 2 ^ 32).

Definition toy_deflate (s : toyz) (i : bytes) (av : N) (fl : zflush) : toyz * N * bytes * zrc :=
  if av =? 0 then (s, 0, [], ZErr) else
  let z := (len (t_q s) + len zblock <=? av) && (zlen <=? len i) && forallb (N.eqb 0) (firstn (N.to_nat zlen) i) in
  let c := if z then zlen else N.min (len i) (N.min 60000 (av - len (t_q s) - 5)) in
  let d := firstn (N.to_nat c) i in
  let dat := t_dat s ++ d in
  let q := t_q s ++ (if z then zblock else if 0 <? c then sblock d else []) in
  let q := match fl with
           | ZSync => q ++ [0; 0; 0; 255; 255]
           | ZFinish => if t_end s then q else q ++ toy_tail dat
           | _ => q
           end in
  let e := match fl with ZFinish => true | _ => t_end s end in
  let o := firstn (N.to_nat av) q in
  let r := skipn (N.to_nat av) q in
  (mkToy r dat e, c, o, match fl, r with ZFinish, [] => ZEnd | _, _ => ZOk end).

Definition toy_head : bytes := gzip_head ++ le_enc 8 0.

Definition toy_gzip (level : N) (t : bytes) : bytes :=
  toy_head ++ flat_map sblock (chunks (N.to_nat 60000) t) ++ toy_tail t.

(* 64 hex digits *)
Definition toy_sha (d : bytes) : bytes :=
  hexpad 64 (fold_left (fun a b => N.land (33 * a + b + 7) (N.ones 64)) d 1 
             * 0x9e3779b97f4a7c15f39cc0605cedc8341082276bf3a27251f86c6a11d0c18e95 mod 2 ^ 256).

Definition toy : zlib :=
  mkZ toyz (mkToy toy_head [] false) toy_deflate toy_gzip toy_sha
      (fun c1 c2 n => N.lxor (N.iter n (fun c => crc_byte c 0) c1) c2).

(* the same, with a digest which is not much of one *)
Definition toy_const : zlib :=
  mkZ toyz (mkToy toy_head [] false) toy_deflate toy_gzip (fun _ => repeat 48 64)
      (fun c1 c2 n => N.lxor (N.iter n (fun c => crc_byte c 0) c1) c2).

Definition toy_conf (max : N) : conf :=
  mkConf (str "http://example.com/") 32 max (fun n => decpad 8 n ++ str ".warc.gz") 
         (str "operator: me" ++ [13; 10]) (str "abc123") 50.

Definition fs0 : fs :=
  mkFs (fun _ => None) (fun _ => None) [] None (str "2024-01-01T00:00:00Z").
