(* What stow promises, in terms of the frames on the connection, the files which
   mtree lists and the archive. *)
From Verif Require Import Base StowModel.
Open Scope list_scope.
Open Scope N_scope.

(* What a file contains, in the end *)
Definition content (x : subj) : bytes := List.concat (j_data x).

(* Of the frames to the server: the identifiers asked about; what is in data
   frames; what is in metadata frames. *)
Fixpoint offered (h : list cmsg) : list bytes :=
  match h with [] => [] | FFilter d :: r => d :: offered r | _ :: r => offered r end.
Fixpoint datas (h : list cmsg) : list bytes :=
  match h with [] => [] | FData d :: r => d :: datas r | _ :: r => datas r end.
Fixpoint metas (h : list cmsg) : list bytes :=
  match h with [] => [] | FMeta d :: r => d :: metas r | _ :: r => metas r end.
(* Objects in the data frames: those which have ended, and the one which has not *)
Fixpoint bodies (cur : bytes) (l : list bytes) : list bytes * bytes :=
  match l with
  | [] => ([], cur)
  | [] :: r => let (a, b) := bodies [] r in (cur :: a, b)
  | b :: r => bodies (cur ++ b) r
  end.
Definition transfers (h : list cmsg) : list bytes * bytes := bodies [] (datas h).

(* Of the frames to the client: the identifiers reported missing *)
Fixpoint reported (h : list smsg) : list bytes :=
  match h with
  | [] => []
  | RFilter p :: r => if 16 <=? len p then p :: reported r else reported r
  | _ :: r => reported r
  end.

(* The identifiers asked about which are not empty, the one that ends the list *)
Definition asked (h : list cmsg) : list bytes := filter (fun d => negb (len d =? 0)) (offered h).

(* One answer for each of some files: true if there, false if missing *)
Definition answers := list (subj * bool).
Definition missing (a : answers) : list subj := map fst (filter (fun e => negb (snd e)) a).

Section Spec.
Variable idsize : N.
Variable sha : bytes -> bytes.
Definition key (x : subj) : bytes := cut idsize (j_dig x).

(* The answers are true: what is said to be there is in the archive, what is said
   to be missing was not there at first. *)
Definition truthful (before now : list bytes) (a : answers) : Prop :=
  forall x, (In (x, true) a -> In (key x) now) /\ (In (x, false) a -> ~ In (key x) before).

(* The objects of files in this order, each once, the last one perhaps not to its end *)
Definition in_turn (t : list bytes * bytes) (l : list subj) : Prop :=
  exists n, (n <= List.length l)%nat /\ fst t = map content (firstn n l) /\
    match nth_error l n with
    | Some x => exists r, content x = snd t ++ r
    | None => snd t = []
    end.

(* Those which were found to be something else than mtree had seen *)
Fixpoint changes (l : list subj) : list (bytes * bytes) :=
  match l with
  | [] => []
  | x :: r =>
      let id := cut idsize (sha (content x)) in
      if bytes_eqb (key x) id then changes r else (j_dig x, id) :: changes r
  end.

(* The identifiers of the archive: from SHA256 in hex, behind a slash *)
Record plausible (prefix : bytes) (meta_text : list (bytes * bytes) -> list bytes) : Prop := {
  pl_size : 16 <= idsize <= 64;
  pl_prefix : exists q, prefix = q ++ [47];
  pl_sha : forall d, len (sha d) = 64 /\ ~ In 47 (sha d);
  pl_meta : forall c, Forall (fun b => b <> []) (meta_text c) }.

(* A file that can be read, with a digest that mtree has found; it may since have
   changed, but is not empty.  And the tree, with its own. *)
Definition fine_data (x : subj) : Prop := j_data x <> [] /\ Forall (fun b => b <> []) (j_data x).
Definition fine_file (x : subj) : Prop := j_file x = true /\ len (j_dig x) = 64 /\ fine_data x.
Definition fine_tree (x : subj) : Prop :=
  j_file x = false /\ len (j_dig x) = 64 /\ fine_data x /\ j_dig x = sha (content x).

(* The filter never finds the tree itself in the archive *)
Definition tree_new (tree : subj) (l : label) : Prop :=
  match l with LLook there => there (key tree) = false | _ => True end.
Definition not_other (l : label) : Prop := match l with LOther _ => False | _ => True end.
End Spec.

(* Somebody else stores some objects *)
Inductive others idsize prefix sha meta_text tree : world -> world -> Prop :=
| oth_none w : others idsize prefix sha meta_text tree w w
| oth_more w w1 w2 id : others idsize prefix sha meta_text tree w w1 ->
    step idsize prefix sha meta_text tree (LOther id) w1 = Some (Ok w2) -> others idsize prefix sha meta_text tree w w2.
