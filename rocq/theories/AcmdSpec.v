(* What the command lines of audit, reindex and rebuild are about. *)
From Coq Require Import String.
From Verif Require Import Base ProgModel StoreModel SiloNameModel AcmdModel.
Open Scope string_scope.
Open Scope list_scope.
Open Scope N_scope.

(* An archive on disk: the silos are regular files under their names, which can be opened;
   k is the first number whose directory is missing. *)
Record on_disk (dirname : bytes) (b : basename) (s : fs) (D : disk) (k : N) : Prop := {
  od_size : k < 2 ^ 32;
  od_end : d_noent D (Silo_Dirname dirname k) = true;
  od_dirs : forall n, n < k -> d_noent D (Silo_Dirname dirname n) = false;
  od_reg : forall n, n < k -> (d_reg D (Silo_Filename dirname b n false) = true <-> f_silo s n <> None);
  od_file : forall n, d_file D (Silo_Filename dirname b n false) = option_map fst (f_silo s n);
  od_all : forall n, f_silo s n <> None -> n < k }.

Definition ignore_word : bytes := str "ignore-metadata-record-id".

(* No name is another one with an underscore behind it. *)
Definition apart (names : list bytes) : Prop := forall fn fn', In fn names -> In fn' names -> fn' <> fn ++ str "_".
