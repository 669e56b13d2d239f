(* Property theorems C64: the directories silos are put into.  Statements only. *)
From Coq Require Import String.
From Verif Require Import Base ConfigModel SiloNameModel SiloNameSpec DirModel DirSpec DirMain DirEnd.
Open Scope string_scope.
Open Scope list_scope.
Open Scope N_scope.

(* C64 in full: whatever silo.directory is accepted in the configuration, before a silo is
   opened the directory it belongs into is made, with all directories above it which are
   missing, and nothing else is changed; success is reported if and only if the directory
   is there afterwards, also if others make directories at the same time.  Proved for a
   directory written with single slashes, of which the first name is there if it is not
   absolute, and with no file in the way; refuted in four ways below. *)

(* Alone: the directory is there afterwards, and what is new is a directory above it. *)
Theorem C64_alone_partial : forall cwd abs cs b n h T, Forall name_ok cs -> ok_base b -> tree_ok T -> begun T cwd abs cs ->
  free T (resolve cwd (Silo_Dirname (written_dir abs cs) n)) ->
  exists m, forall fuel, (m <= fuel)%nat -> exists T', alone cwd (silo_mkparentdir fuel (Silo_Filename (written_dir abs cs) b n h)) T = Some (T', true) /\ tree_ok T' /\
    T' (resolve cwd (Silo_Dirname (written_dir abs cs) n)) = Some KDir /\
    forall l, T' l = T l \/ above l (resolve cwd (Silo_Dirname (written_dir abs cs) n)) /\ T' l = Some KDir.
Proof. exact silo_alone. Qed.
Print Assumptions C64_alone_partial.

(* With others making directories between any two calls: nothing is lost or replaced, and
   success is reported only if the directory is there. *)
Theorem C64_among_partial : forall cwd abs cs b n h T fuel T' ok, Forall name_ok cs -> ok_base b -> tree_ok T -> begun T cwd abs cs ->
  free T (resolve cwd (Silo_Dirname (written_dir abs cs) n)) ->
  among cwd (silo_mkparentdir fuel (Silo_Filename (written_dir abs cs) b n h)) T T' ok ->
  grown T T' /\ (ok = true -> T' (resolve cwd (Silo_Dirname (written_dir abs cs) n)) = Some KDir).
Proof. exact silo_among. Qed.
Print Assumptions C64_among_partial.
Example C64_case : Forall name_ok [str "var"; str "archive"] /\ ok_base default_basename /\ tree_ok root_only /\ begun root_only [] true [str "var"; str "archive"] /\
  written_dir true [str "var"; str "archive"] = str "/var/archive/" /\ free root_only (resolve [] (Silo_Dirname (str "/var/archive/") 12345)) /\
  resolve [] (Silo_Dirname (str "/var/archive/") 12345) = [str "var"; str "archive"; str "2"; str "01"; str "23"].
Proof. exact silo_case. Qed.

(* A silo.directory which is not absolute, and of which nothing is there yet, is accepted in
   the configuration; then silo_mkparentdir calls itself without end (wsilo.c:94-99: without
   a slash the name is not shortened). *)
Theorem C64_relative_refuted : exists aa T, (exists cfg, AardWARC_New (fun _ => 128) (fun _ => Some 1000000) (fun _ => true) cfg = Some aa) /\
  aa_silo_dirname aa = str "archive/" /\ tree_ok T /\ T [str "home"] = Some KDir /\ T [str "home"; str "archive"] = None /\
  forall n h fuel, alone [str "home"] (silo_mkparentdir fuel (Silo_Filename (aa_silo_dirname aa) default_basename n h)) T = None.
Proof. exact relative_refuted. Qed.
Print Assumptions C64_relative_refuted.

(* With a doubled slash in silo.directory and nothing there, failure is reported for silo 0;
   the directory is there for silo 1, which is then used instead. *)
Theorem C64_double_refuted : match alone [] (silo_mkparentdir 20 (Silo_Filename (str "/a//") default_basename 0 false)) root_only with
  | Some (T1, ok1) => ok1 = false /\
      match alone [] (silo_mkparentdir 20 (Silo_Filename (str "/a//") default_basename 1 false)) T1 with
      | Some (T2, ok2) => ok2 = true /\ T2 [str "a"; str "0"] = Some KDir
      | None => False
      end
  | None => False
  end.
Proof. exact double_refuted. Qed.
Print Assumptions C64_double_refuted.

(* With a file in the way success is reported, and there is no directory. *)
Theorem C64_blocked_refuted : exists T', tree_ok with_file /\ alone [] (silo_mkparentdir 20 (Silo_Filename (str "/f/") default_basename 0 false)) with_file = Some (T', true) /\ T' = with_file /\
  with_file [str "f"; str "0"] = None.
Proof. exact blocked_refuted. Qed.
Print Assumptions C64_blocked_refuted.

(* If another makes the directory at the same time, failure is reported although it is there. *)
Theorem C64_race_refuted : exists T', among [] (silo_mkparentdir 20 (Silo_Filename (str "/") default_basename 0 false)) root_only T' false /\
  (forall l, T' l = root_only l \/ l = [str "0"] /\ T' l = Some KDir) /\ T' (resolve [] (Silo_Dirname (str "/") 0)) = Some KDir.
Proof. exact race_refuted. Qed.
Print Assumptions C64_race_refuted.
