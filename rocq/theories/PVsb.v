(* Property theorems C36: string buffers. *)
From Coq Require Import String.
From Verif Require Import Base VsbModel VsbSpec VsbProofs.
Open Scope string_scope.
Open Scope list_scope.
Open Scope N_scope.

(* C36: a dynamic buffer holds exactly what was appended since it was cleared
   (no undefined behaviour, so no write outside the allocation), as long as
   memory can be had. *)
Theorem C36_auto : forall alloc junk ops s, (forall n, alloc n = true) ->
  VSB_new_auto alloc junk = Some s -> indents_ok 0 ops ->
  exists s', vrun alloc junk s ops = Ok s' /\ holds s' (fst (vtext ops)).
Proof. exact auto_exact. Qed.
Print Assumptions C36_auto.
Definition ex_ops : list vop :=
  [VCat (str "lost"); VClear; VPrintf (str "a line" ++ [10]); VIndent 2; VCat (str "b" ++ [10] ++ str "c");
   VBcat (repeat 120 (N.to_nat 5000)); VPutc 10; VIndent (-2); VPrintf (repeat 121 (N.to_nat 9000))].
Example C36_auto_case : indents_ok 0 ex_ops /\
  exists s, VSB_new_auto (fun _ => true) (fun k => k) = Some s /\
  len (fst (vtext ex_ops)) = 14015 /\
  firstn 15 (fst (vtext ex_ops)) = str "a line" ++ [10] ++ str "  b" ++ [10] ++ str "  cx".
Proof. split; [vm_compute; repeat split; discriminate|]. eexists. split; [reflexivity|]. vm_compute. auto. Qed.

(* C36: with any failing allocation nothing is written outside, and unless
   printf was used a buffer which lacks something says so. *)
Theorem C36_alloc_partial : forall alloc junk ops s, VSB_new_auto alloc junk = Some s ->
  exists s', vrun alloc junk s ops = Ok s' /\
    (forallb (fun o => negb (is_printf o)) ops = true -> reports s' \/ holds s' (fst (vtext ops))).
Proof. exact auto_safe. Qed.
Print Assumptions C36_alloc_partial.
(* The full claim (also with printf) is false: *)
Theorem C36_alloc_refuted : exists alloc junk ops s, VSB_new_auto alloc junk = Some s /\ indents_ok 0 ops /\
  exists s', vrun alloc junk s ops = Ok s' /\ holds s' (str "0123456789abcde") /\
    fst (vtext ops) = str "0123456789abcdefghij".
Proof.
  exists (fun n => n <=? 16), (fun _ => 0), [VPrintf (str "0123456789abcdefghij")]. eexists.
  split; [vm_compute; reflexivity|]. split; [exact I|]. eexists. split; [vm_compute; reflexivity|].
  split; [|vm_compute; reflexivity]. eexists. eexists. split; [vm_compute; reflexivity|]. vm_compute. auto.
Qed.
Print Assumptions C36_alloc_refuted.
Example C36_alloc_case : exists s, VSB_new_auto (fun n => n <=? 16) (fun _ => 0) = Some s /\
  match vrun (fun n => n <=? 16) (fun _ => 0) s [VCat (str "0123456789abcdefghij")] with
  | Ok s' => match VSB_finish s' with Ok f => VSB_len f = Ok None | _ => False end
  | _ => False
  end.
Proof. eexists. split; [reflexivity|]. vm_compute. auto. Qed.

(* C36: a buffer of fixed size either holds exactly what was appended or says
   so; it never complains while a byte remains free, always complains about
   what cannot fit, is as new after clearing, and never writes outside. *)
Theorem C36_fixed : forall alloc junk ops buf s, VSB_new_fixed buf = Ok s ->
  exists s', vrun alloc junk s ops = Ok s' /\
    (reports s' \/ holds s' (fst (vtext ops))) /\
    (stays_below (len buf - 1) ([], 0) ops -> indents_ok 0 ops -> holds s' (fst (vtext ops))) /\
    (forall a b, ops = a ++ VClear :: b -> stays_below (len buf - 1) ([], 0) b -> indents_ok 0 b ->
       fst (vtext ops) = fst (vtext b) /\ holds s' (fst (vtext b))) /\
    (len buf <= len (fst (vtext ops)) -> reports s').
Proof. exact fixed_exact. Qed.
Print Assumptions C36_fixed.
Example C36_fixed_case :
  (exists s, VSB_new_fixed (repeat 7 20) = Ok s) /\
  stays_below 19 ([], 0) [VCat (str "0123456789"); VPrintf (str "abc")] /\
  len (repeat 7 10) <= len (fst (vtext [VCat (str "0123456789"); VPrintf (str "abc")])).
Proof. split; [eexists; reflexivity|]. vm_compute. repeat split; auto; discriminate. Qed.
