(* Property theorems C33 and C34: gzip members. *)
From Coq Require Import String.
From Verif Require Import Base IndexModel InflateSpec GzipModel GzipSpec GzipProofs GzipLarge.
Open Scope string_scope.
Open Scope list_scope.
Open Scope N_scope.

(* C33: each segment by itself decompresses to its data. *)
Theorem C33_member : forall m data rest, synced m data -> gunzip (m ++ rest) = Some (data, rest).
Proof. exact synced_gunzip. Qed.
Print Assumptions C33_member.

(* C33: any number of segments, read in pieces of any size, come out as one
   gzip member which decompresses (length and CRC checked) to all the data.
   Only the first segment may hold 2^32 bytes or more. *)
Theorem C33_stitch_partial : forall comb segs, comb_ok comb -> Forall ok_seg segs ->
  Forall (fun s => len (snd s) < 2 ^ 32) (tl segs) ->
  exists out, stitch_all comb (concat (map fst segs)) = Ok out /\
    gunzip out = Some (concat (map snd segs), []).
Proof. exact stitch_correct. Qed.
Print Assumptions C33_stitch_partial.
(* Real output of zlib (level 9, Z_SYNC_FLUSH, Z_FINISH), the second segment in
   pieces of 24, 11, 1 and the remaining bytes. *)
Definition mk_seg (xfl : N) (B fin data : bytes) : bytes :=
  ([31; 139; 8; 4; 0; 0; 0; 0; xfl; 3; 12; 0; 65; 97; 8; 0] ++
   le_enc 8 (24 + len B + len fin + 8)) ++ B ++ fin ++ le_enc 4 (crc32 data) ++ le_enc 4 (len data mod 2 ^ 32).
Definition ex_d1 := str "hello hello hello".
Definition ex_m1 := mk_seg 2
  [202; 72; 205; 201; 201; 87; 200; 64; 144; 0; 0; 0; 0; 255; 255] [3; 0] ex_d1.
Definition ex_d2 := str "more".
Definition ex_m2 := mk_seg 4 (stored1 ex_d2) [1; 0; 0; 255; 255] ex_d2.
Definition ex_segs : list (list bytes * bytes) :=
  [([ex_m1], ex_d1);
   ([firstn 24 ex_m2; firstn 11 (skipn 24 ex_m2); firstn 1 (skipn 35 ex_m2); skipn 36 ex_m2], ex_d2)].
Definition ex_comb (c1 c2 n : N) : N := N.lxor (crc_zeros c1 n) c2.
Example C33_stitch_case : comb_ok ex_comb /\ Forall ok_seg ex_segs /\
  Forall (fun s => len (snd s) < 2 ^ 32) (tl ex_segs) /\
  match stitch_all ex_comb (concat (map fst ex_segs)) with
  | Ok out => gunzip out = Some (str "hello hello hellomore", [])
  | _ => False
  end.
Proof.
  split; [intros c1 c2 n _ _; reflexivity|]. split; [|split].
  - repeat constructor.
    + exists ex_m1. split.
      * split; [reflexivity|]. split; [repeat constructor; vm_compute; discriminate|]. vm_compute. discriminate.
      * exists 2, [202; 72; 205; 201; 201; 87; 200; 64; 144; 0; 0; 0; 0; 255; 255], [3; 0].
        split; [vm_compute; reflexivity|]. split; [vm_compute; reflexivity|].
        split; [exists [202; 72; 205; 201; 201; 87; 200; 64; 144; 0; 0]; reflexivity|]. split; [|auto].
        eapply blocks_cons; [vm_compute; reflexivity|]. eapply blocks_cons; [vm_compute; reflexivity|].
        vm_compute. constructor.
    + exists ex_m2. split.
      * split; [reflexivity|]. split; [repeat constructor; vm_compute; discriminate|]. vm_compute. discriminate.
      * exists 4, (stored1 ex_d2), [1; 0; 0; 255; 255].
        split; [vm_compute; reflexivity|]. split; [vm_compute; reflexivity|].
        split; [eexists (flat_map (fun x => [0; 1; 0; 254; 255; x]) ex_d2 ++ [0]); reflexivity|]. split; [|auto].
        do 5 (eapply blocks_cons; [vm_compute; reflexivity|]). vm_compute. constructor.
  - repeat constructor.
  - vm_compute. reflexivity.
Qed.

(* C33 fails for every later segment of 2^32 bytes or more (gzip.c:336-338: the
   length given to crc32_combine is only 32 bits): the CRC of the output is
   wrong and the output does not decompress.  This is shown for every such
   segment below 2^33 bytes. *)
Theorem C33_large : forall comb ps1 d1 ps2 d2, comb_ok comb -> ok_seg (ps1, d1) -> ok_seg (ps2, d2) ->
  crc32 d1 <> 0 -> 2 ^ 32 <= len d2 < 2 ^ 33 ->
  exists out, stitch_all comb (ps1 ++ ps2) = Ok out /\ gunzip out = None.
Proof. exact stitch_large. Qed.
Print Assumptions C33_large.
Theorem C33_refuted : exists segs, Forall ok_seg segs /\
  forall comb, comb_ok comb -> exists out, stitch_all comb (concat (map fst segs)) = Ok out /\ gunzip out = None.
Proof.
  exists [([stored_seg [97]], [97]);
          ([stored_seg (repeat 0 (N.to_nat (2 ^ 32)))], repeat 0 (N.to_nat (2 ^ 32)))].
  assert (B : is_bytes (repeat 0 (N.to_nat (2 ^ 32)))).
  { apply Forall_forall. intros x H. apply repeat_spec in H. subst x. reflexivity. }
  assert (L : len (repeat 0 (N.to_nat (2 ^ 32))) = 2 ^ 32).
  { unfold len. rewrite repeat_length. apply N2Nat.id. }
  assert (O1 : ok_seg ([stored_seg [97]], [97])) by (apply stored_ok; [repeat constructor|reflexivity]).
  assert (O2 : ok_seg ([stored_seg (repeat 0 (N.to_nat (2 ^ 32)))], repeat 0 (N.to_nat (2 ^ 32)))).
  { apply stored_ok; auto. rewrite L. reflexivity. }
  split; [constructor; [exact O1|constructor; [exact O2|constructor]]|].
  intros comb C. cbn [map fst concat]. rewrite app_nil_r.
  apply (stitch_large comb _ _ _ _ C O1 O2); [vm_compute; discriminate|]. rewrite L. split; [discriminate|reflexivity].
Qed.
Print Assumptions C33_refuted.

(* C34: the length written into the header of a member anywhere in a file reads
   back; nothing else in the file changes. *)
Theorem C34_roundtrip : forall a m r, Gzip_GoodAa m = Ok true -> 24 <= len m < 2 ^ 63 -> exists m',
  Gzip_WriteAa (a ++ m ++ r) (len a) (Z.of_N (len m)) = Ok (a ++ m' ++ r) /\
  firstn 16 m' = firstn 16 m /\ skipn 24 m' = skipn 24 m /\ len m' = len m /\
  forall buf, firstn 24 buf = firstn 24 m' -> Gzip_ReadAa buf = Ok (Z.of_N (len m)).
Proof. exact aa_roundtrip. Qed.
Print Assumptions C34_roundtrip.
Example C34_roundtrip_case :
  Gzip_GoodAa ex_m2 = Ok true /\ (24 <= len ex_m2 < 2 ^ 63) /\ len ex_m2 = 66 /\
  match Gzip_WriteAa ([1; 2; 3] ++ ex_m1 ++ [9]) 3 (Z.of_N (len ex_m1)) with
  | Ok f => Gzip_ReadAa (skipn 3 f) = Ok 49%Z
  | _ => False
  end.
Proof. vm_compute. repeat split; auto; discriminate. Qed.

(* C34: the same for members made in memory; what they decompress to does not
   change. *)
Theorem C34_vsb : forall gzip level t p, Gzip_Vsb gzip level t = Ok p -> len p < 2 ^ 63 ->
  Gzip_ReadAa p = Ok (Z.of_N (len p)) /\ len p = len (gzip level t) /\ gunzip p = gunzip (gzip level t).
Proof. exact vsb_aa. Qed.
Print Assumptions C34_vsb.
Example C34_vsb_case : exists p, Gzip_Vsb (fun _ t => mk_seg 2 (stored1 t) [3; 0] t) 9 (str "abc") = Ok p /\
  len p = 57 /\ gunzip p = Some (str "abc", []).
Proof. eexists. split; [vm_compute; reflexivity|]. vm_compute. auto. Qed.

(* C34: no access beyond the buffer unless 16 to 23 bytes are available. *)
Theorem C34_bounds_partial : forall p, len p < 16 \/ 24 <= len p -> Gzip_ReadAa p <> UB.
Proof. exact read_aa_safe. Qed.
Print Assumptions C34_bounds_partial.
(* With 16 to 23 bytes the check at gzip.c:133 passes ("sizeof sizeof") and the
   length is read from beyond the buffer. *)
Theorem C34_bounds_refuted : exists p, len p = 20 /\ Gzip_ReadAa p = UB.
Proof. exists (gzip_head ++ [1; 0; 0; 0]). vm_compute. auto. Qed.
Print Assumptions C34_bounds_refuted.
