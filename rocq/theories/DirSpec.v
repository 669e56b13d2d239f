(* Directories and paths. *)
From Coq Require Import String.
From Verif Require Import Base DirModel.
Open Scope list_scope.
Open Scope N_scope.

(* Everything is in a directory. *)
Definition tree_ok (T : tree) : Prop := T [] = Some KDir /\ forall l c, T (l ++ [c]) <> None -> T l = Some KDir.

(* A name, and names with a slash behind each *)
Definition name_ok (c : bytes) : Prop := c <> [] /\ ~ In 47 c.
Definition slashed (cs : list bytes) : bytes := flat_map (fun c => c ++ [47]) cs.

(* How a directory is written, and which one is meant: [abs] tells whether with a slash in
   front. *)
Definition written_dir (abs : bool) (cs : list bytes) : bytes := (if abs then [47] else []) ++ slashed cs.
Definition meant (cwd : list bytes) (abs : bool) (cs : list bytes) : list bytes := (if abs then [] else cwd) ++ cs.

Definition above (l l' : list bytes) : Prop := exists r, l' = l ++ r.
(* nothing but directories in the way *)
Definition free (T : tree) (l : list bytes) : Prop := forall a, above a l -> T a <> Some KFile.
(* a path which is written from the working directory on begins with a directory which is there *)
Definition begun (T : tree) (cwd : list bytes) (abs : bool) (cs : list bytes) : Prop :=
  abs = true \/ exists c r, cs = c :: r /\ T (cwd ++ [c]) = Some KDir.

(* others make directories meanwhile *)
Definition grown (T T' : tree) : Prop := tree_ok T' /\ forall l, T' l = T l \/ T l = None /\ T' l = Some KDir.
Inductive among (cwd : list bytes) : proc -> tree -> tree -> bool -> Prop :=
| am_done ok T : among cwd (PDone ok) T T ok
| am_other m T T1 T2 ok : grown T T1 -> among cwd m T1 T2 ok -> among cwd m T T2 ok
| am_stat p k T T2 ok : among cwd (k (do_stat T cwd p)) T T2 ok -> among cwd (PStat p k) T T2 ok
| am_made p k T T1 T2 ok : do_mkdir T cwd p = Some T1 -> among cwd (k true) T1 T2 ok -> among cwd (PMkdir p k) T T2 ok
| am_failed p k T T2 ok : do_mkdir T cwd p = None -> among cwd (k false) T T2 ok -> among cwd (PMkdir p k) T T2 ok.
