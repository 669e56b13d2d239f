(* Model of the names of the other files of an archive. *)
From Coq Require Import String.
From Verif Require Import Base SiloNameModel.
Open Scope string_scope.
Open Scope list_scope.
Open Scope N_scope.

(* idx_filename, index.c:179-191 *)
Definition idx_filename (dirname : bytes) (suff : option bytes) : bytes :=
  dirname ++ str "/index" ++ match suff with Some s => str "." ++ s | None => [] end.
(* the suffixes, index.c:148-151, and that of the file being sorted, index.c:496 (getpid) *)
Definition SUFF_HOLD : bytes := str "hold".
Definition SUFF_SORTED : bytes := str "sorted".
Definition SUFF_APPENDIX : bytes := str "appendix".
Definition SUFF_HOUSEKEEP : bytes := str "housekeep".
Definition suff_tmp (pid : N) : bytes := str "tmp." ++ dec pid.
(* aardwarc.c:174 and 197 *)
Definition cache_filename (dirname : bytes) : bytes := dirname ++ str "/_.cache".
(* main_rebuild.c:255-257 *)
Definition rebuilt_filename (fn : bytes) : bytes := fn ++ str "_".
