(* Property theorem C35: lines do not depend on how the stream is cut. *)
From Coq Require Import String.
From Verif Require Import Base VluModel VluSpec VluProofs.
Open Scope string_scope.
Open Scope list_scope.
Open Scope N_scope.

(* C35: for a stream without NUL whose lines are shorter than the buffer, fed
   in any pieces, the callback gets exactly the lines of the stream, through
   the first it refuses, whose verdict is returned; what is left in the buffer
   is the unfinished line. *)
Theorem C35_feed_partial : forall stop bufsize ps,
  textual (concat ps) -> short (v_bufl (VLU_New bufsize)) (concat ps) -> Forall (fun p => p <> []) ps ->
  exists v, feed_all (fun l a p => VLU_Feed (collect stop) (length p) l a p) (VLU_New bufsize) [] ps =
    Ok (fst (upto_stop stop (lines (concat ps))), v, snd (upto_stop stop (lines (concat ps)))) /\
  (snd (upto_stop stop (lines (concat ps))) = 0%Z -> v_buf v = rest (concat ps)).
Proof. exact feed_pieces. Qed.
Print Assumptions C35_feed_partial.

(* C35: reading a descriptor, whatever the sizes of the reads, likewise; -2
   says end of file.  An unfinished last line is not delivered. *)
Theorem C35_file_partial : forall stop bufsize cut fuel inp,
  textual inp -> short (v_bufl (VLU_New bufsize)) inp -> (length inp < fuel)%nat ->
  VLU_File (collect stop) fuel cut bufsize [] inp =
    Ok (fst (upto_stop stop (lines inp)),
        if (snd (upto_stop stop (lines inp)) =? 0)%Z then (-2)%Z else snd (upto_stop stop (lines inp))).
Proof. exact file_lines. Qed.
Print Assumptions C35_file_partial.
Definition ex_text : bytes := str "first" ++ [10] ++ str "sec" ++ [13; 10] ++ str "third" ++ [10] ++ str "no".
Example C35_case : textual ex_text /\ short (v_bufl (VLU_New 8)) ex_text /\
  lines ex_text = [str "first"; str "sec"; []; str "third"] /\ rest ex_text = str "no" /\
  VLU_File (collect (fun l => if bytes_eqb l (str "third") then 7%Z else 0%Z)) 40 (fun n => N.of_nat n mod 5) 8 [] ex_text =
    Ok (lines ex_text, 7%Z).
Proof.
  split; [vm_compute; intuition discriminate|]. split; [split; [repeat constructor|reflexivity]|].
  vm_compute. auto.
Qed.

(* Missing from C35: a line which does not fit is not reported.  Feeding never
   returns, for any fuel; *)
Theorem C35_feed_refuted : forall stop bufsize fuel a c t,
  1 < bufsize -> eol_free a -> textual a -> len a = bufsize - 1 ->
  VLU_Feed (collect stop) fuel (VLU_New bufsize) [] (a ++ c :: t) = Fuel.
Proof. exact feed_hangs. Qed.
Print Assumptions C35_feed_refuted.

(* and reading a descriptor says end of file, dropping all that follows. *)
Theorem C35_file_refuted : forall stop bufsize cut fuel a t,
  0 < bufsize -> eol_free a -> textual a -> len a = bufsize - 1 -> (length a < fuel)%nat ->
  VLU_File (collect stop) fuel cut bufsize [] (a ++ t) = Ok ([], (-2)%Z).
Proof. exact file_ends. Qed.
Print Assumptions C35_file_refuted.
Example C35_long_case : eol_free (repeat 97 255) /\ textual (repeat 97 255) /\ len (repeat 97 255) = 256 - 1.
Proof.
  split; [repeat constructor|]. split; [|reflexivity].
  intros H. apply repeat_spec in H. discriminate.
Qed.

(* With a NUL in the stream the lines do depend on how it is cut. *)
Definition nul_text : bytes := str "ab" ++ [0] ++ str "cd" ++ [10] ++ str "ef" ++ [10].
Theorem C35_nul_refuted : exists ps1 ps2, concat ps1 = concat ps2 /\
  (exists v, feed_all (fun l a p => VLU_Feed (collect (fun _ => 0%Z)) (length p) l a p) (VLU_New 256) [] ps1 = Ok ([], v, 0%Z)) /\
  (exists v, feed_all (fun l a p => VLU_Feed (collect (fun _ => 0%Z)) (length p) l a p) (VLU_New 256) [] ps2 =
     Ok ([str "abcd"; str "ef"], v, 0%Z)).
Proof. exact nul_cut. Qed.
Print Assumptions C35_nul_refuted.
