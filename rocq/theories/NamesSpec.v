(* The files of an archive. *)
From Coq Require Import String.
From Verif Require Import Base SiloNameModel NamesModel.
Open Scope list_scope.
Open Scope N_scope.

Inductive archive_file :=
| FSilo (n : N) | FHold (n : N) | FRebuilt (n : N)
| FSorted | FAppendix | FHousekeep | FIndexHold | FTmp (pid : N)
| FCache.
Definition name_of (dirname : bytes) (b : basename) (f : archive_file) : bytes :=
  match f with
  | FSilo n => Silo_Filename dirname b n false
  | FHold n => Silo_Filename dirname b n true
  | FRebuilt n => rebuilt_filename (Silo_Filename dirname b n false)
  | FSorted => idx_filename dirname (Some SUFF_SORTED)
  | FAppendix => idx_filename dirname (Some SUFF_APPENDIX)
  | FHousekeep => idx_filename dirname (Some SUFF_HOUSEKEEP)
  | FIndexHold => idx_filename dirname (Some SUFF_HOLD)
  | FTmp pid => idx_filename dirname (Some (suff_tmp pid))
  | FCache => cache_filename dirname
  end.
(* silo.directory ends with a slash (aardwarc.c:101-106) *)
Definition ends_slash (dirname : bytes) : Prop := exists d, dirname = d ++ [47].
