(* Specification of reindex: what has to be in the silos for the command to find
   the whole index again. *)
From Coq Require Import String Permutation.
From Verif Require Import Base IndexModel IndexSpec HeaderModel HeaderSpec GzipModel GzipSpec ProgModel StoreModel StoreSpec.
Open Scope string_scope.
Open Scope list_scope.
Open Scope N_scope.

Section Reindex.
Variable C : conf.
Variable L : zlib.

(* The record says it is segment number k of the object id. *)
Definition segment_of (w : wrec) (id : bytes) (k : N) : Prop :=
  has (wr_hdr w) "WARC-Segment-Number" (dec k) /\
  if k =? 1 then h_id (wr_hdr w) = id
  else has (wr_hdr w) "WARC-Segment-Origin-ID" (str "<" ++ c_prefix C ++ id ++ str ">").

(* No segment of an object is there twice. *)
Definition once (s : fs) : Prop := forall n o w e n' o' w' e' id k,
  in_archive C L s n o w e -> in_archive C L s n' o' w' e' ->
  segment_of w id k -> segment_of w' id k -> n = n' /\ o = o'.

(* Every segment is part of an object which is completely there. *)
Definition whole (s : fs) : Prop := forall n o w e v,
  in_archive C L s n o w e -> has (wr_hdr w) "WARC-Segment-Number" v ->
  exists id data ps p, len id = c_idsize C /\ chain C L s id data 1 ps /\ (2 <= List.length ps)%nat /\
    In p ps /\ p_silo p = n /\ p_off p = o.

(* All silos, in some order, with their contents. *)
Definition silos_of (s : fs) (l : list (N * bytes)) : Prop :=
  NoDup (map fst l) /\ forall n b, In (n, b) l <-> exists w, f_silo s n = Some (b, w).
End Reindex.

(* The file name, given with a directory, begins with the number of the silo. *)
Definition named_after (fn : bytes) (n : N) : Prop := exists dir digits rest,
  fn = dir ++ [47] ++ digits ++ rest /\ digits <> [] /\ Forall (fun c => is_digit c = true) digits /\ dec_value digits = n /\
  ~ In 47 rest /\ match rest with c :: _ => is_digit c = false | [] => True end.
