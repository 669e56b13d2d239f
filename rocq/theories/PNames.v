(* Property theorems C66: the names of the files of an archive.  Statements only. *)
From Coq Require Import String.
From Verif Require Import Base SiloNameModel SiloNameSpec DirModel DirSpec NamesModel NamesSpec NamesMain.
Open Scope string_scope.
Open Scope list_scope.
Open Scope N_scope.

(* C66: silos, their hold files and the new files rebuild writes, the files of the index, also
   while it is sorted, and the cache: no two are the same file, *)
Theorem C66_apart : forall cwd dirname b f f', ends_slash dirname -> ok_base b ->
  resolve cwd (name_of dirname b f) = resolve cwd (name_of dirname b f') -> f = f'.
Proof. exact files_apart. Qed.
Print Assumptions C66_apart.

(* each is inside silo.directory, *)
Theorem C66_inside : forall cwd dirname b f, ends_slash dirname -> ok_base b -> exists c r, resolve cwd (name_of dirname b f) = resolve cwd dirname ++ c :: r.
Proof. exact files_inside. Qed.
Print Assumptions C66_inside.

(* and none is where a directory is needed: *)
Theorem C66_no_directory : forall cwd dirname b f m a, ends_slash dirname -> ok_base b ->
  above a (resolve cwd (Silo_Dirname dirname m)) -> resolve cwd (name_of dirname b f) <> a.
Proof. exact files_no_dir. Qed.
Print Assumptions C66_no_directory.

(* where only files of the archive are, nothing is in the way of its directories, as C64 has
   it. *)
Theorem C66_free : forall cwd dirname b T, ends_slash dirname -> ok_base b -> free T (resolve cwd dirname) ->
  (forall r, T (resolve cwd dirname ++ r) = Some KFile -> exists f, resolve cwd (name_of dirname b f) = resolve cwd dirname ++ r) ->
  forall m, free T (resolve cwd (Silo_Dirname dirname m)).
Proof. exact own_files_free. Qed.
Print Assumptions C66_free.
Example C66_case : ends_slash (str "/aa/") /\ ok_base default_basename /\ resolve [] (name_of (str "/aa/") default_basename (FHold 987)) = [str "aa"; str "1"; str "09"; str "00000987.warc.gz.hold"] /\
  resolve [] (name_of (str "/aa/") default_basename (FTmp 42)) = [str "aa"; str "index.tmp.42"].
Proof. exact names_case. Qed.
Definition one_silo : tree := fun l => match l with
  | [] | [_] => Some KDir
  | [_; _] => Some KDir
  | _ => if path_eqb l (resolve [] (name_of (str "/aa/") default_basename (FSilo 3))) then Some KFile else None
  end.
Example C66_free_case : free one_silo (resolve [] (str "/aa/")) /\ one_silo [str "aa"; str "0"; str "00000003.warc.gz"] = Some KFile.
Proof. split; [|vm_compute; reflexivity]. intros [|x [|y a]] (r & A) E; try discriminate E. vm_compute in A. discriminate A. Qed.
