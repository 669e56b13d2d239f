(* What the listing of a directory is, and the files in it *)
From Coq Require Import String.
From Verif Require Import Base Sha256Spec MtreeModel.
Open Scope list_scope.
Open Scope N_scope.

(* A tree of directories: with files, of which there is the digest, and other things *)
Inductive node := NDir (name : bytes) (l : list node) | NFile (name dig : bytes) | NOther (name : bytes).

(* The names of directories from the topmost on, with '/' between them *)
Fixpoint slashed (names : list bytes) : bytes :=
  match names with [] => [] | [n] => n | n :: r => n ++ [47] ++ slashed r end.

(* The digest of a file with nothing in it *)
Definition of_nothing : bytes := sha256_hex [].

(* The files with something in them, in the order of the listing, with the directory
   they are in *)
Fixpoint files (path : list bytes) (n : node) : list entry :=
  match n with
  | NDir name l => flat_map (files (path ++ [name])) l
  | NFile name dig => if bytes_eqb dig of_nothing then [] else [(slashed path, name, dig)]
  | NOther _ => []
  end.

(* No directory has a path of [lim] bytes or more. *)
Fixpoint short (lim : N) (path : list bytes) (n : node) : Prop :=
  match n with
  | NDir name l => len (slashed (path ++ [name])) < lim /\ fold_right (fun x P => short lim (path ++ [name]) x /\ P) True l
  | _ => True
  end.

(* The words of a line: white space of all kinds may be in front of the first, blanks and
   tabs between them *)
Definition white (c : N) : Prop := c = 32 \/ 9 <= c <= 13.
Definition blank (c : N) : Prop := c = 32 \/ c = 9.
Definition plain (w : bytes) : Prop := w <> [] /\ Forall (fun c => ~ blank c) w.
Inductive spaced : bytes -> list bytes -> Prop :=
| spaced_end b : Forall blank b -> spaced b []
| spaced_word b w s l : Forall blank b -> b <> [] -> plain w -> spaced s l -> spaced (b ++ w ++ s) (w :: l).
Definition line_of (line : bytes) (ws : list bytes) : Prop :=
  exists sp s, line = sp ++ s /\ Forall white sp /\
  match ws with [] => s = [] | w :: l => plain w /\ (forall c r, w = c :: r -> ~ white c) /\ exists t, s = w ++ t /\ spaced t l end.

(* The lines of a text: a line which ends in a backslash goes on in the next one.  With
   that, they have less than [lim] bytes. *)
Inductive lines_of (lim : N) : bytes -> list bytes -> Prop :=
| lines_nil : lines_of lim [] []
| lines_empty t l : lines_of lim t l -> lines_of lim (10 :: t) l
| lines_more (ps : list bytes) p t l :
    Forall (fun q => ~ In 10 q) (p :: ps) -> last p 0 <> 92 -> ps ++ [p] <> [[]] ->
    len (flat_map (fun q => q ++ [92; 10]) ps ++ p) < lim ->
    lines_of lim t l -> lines_of lim (flat_map (fun q => q ++ [92; 10]) ps ++ p ++ [10] ++ t) ((flat_map (fun q => q ++ [32; 32]) ps ++ p) :: l).

(* Words beginning with type= and sha256digest= *)
Definition starts (p w : bytes) : Prop := exists r, w = p ++ r.
Definition none (p : bytes) (ws : list bytes) : Prop := Forall (fun w => ~ starts p w) ws.
Definition only (p : bytes) (ws : list bytes) (v : bytes) : Prop := exists a b, ws = a ++ (p ++ v) :: b /\ none p a /\ none p b.
Definition TYPE := str "type=".
Definition DIGEST := str "sha256digest=".
(* What the words say to be the type, if the default is that *)
Definition is_type (dflt : bytes) (ws : list bytes) (ty : bytes) : Prop := none TYPE ws /\ ty = dflt \/ only TYPE ws ty.
Definition dir := str "dir".
Definition file := str "file".

Definition a_name (n : bytes) : Prop := n <> str "/set" /\ n <> str "..".

(* [shows d l ls d']: the lines which mtree prints for what is in a directory; the
   default type is d before and d' behind. *)
Inductive shows : bytes -> list node -> list (list bytes) -> bytes -> Prop :=
| shows_nil d : shows d [] [] d
| shows_blank d l ls d' : shows d l ls d' -> shows d l ([] :: ls) d'
| shows_set d d1 ws l ls d' : is_type d ws d1 -> d1 = dir \/ d1 = file -> shows d1 l ls d' -> shows d l ((str "/set" :: ws) :: ls) d'
| shows_file d name dig ws l ls d' : a_name name -> is_type d ws file -> only DIGEST ws dig -> shows d l ls d' ->
    shows d (NFile name dig :: l) ((name :: ws) :: ls) d'
| shows_other d name ty ws l ls d' : a_name name -> only TYPE ws ty -> ty <> dir -> ty <> file -> shows d l ls d' ->
    shows d (NOther name :: l) ((name :: ws) :: ls) d'
| shows_dir d name ws up sub ls1 d1 l ls2 d2 : a_name name -> ~ In 47 name -> is_type d ws dir -> none DIGEST ws ->
    shows d sub ls1 d1 -> shows d1 l ls2 d2 ->
    shows d (NDir name sub :: l) ((name :: ws) :: ls1 ++ (str ".." :: up) :: ls2) d2.

(* The listing of the directory, if the default type is d before *)
Definition listing (lim : N) (d : bytes) (n : node) (text : bytes) : Prop :=
  exists ls lws d', lines_of lim text ls /\ Forall2 line_of ls lws /\ shows d [n] lws d'.
