(* Model of what store says about MIME types which are not allowed. *)
From Coq Require Import String.
From Verif Require Import Base ConfigModel.
Open Scope string_scope.
Open Scope list_scope.
Open Scope N_scope.

(* mime_print, main_store.c:47-55; the state is what has been written to stderr *)
Definition mime_print (out name : bytes) (arg : option bytes) : bytes * Z :=
  (out ++ str "	" ++ name ++ [10], 0%Z).

(* mime_type, main_store.c:57-75: is it refused, and what has been written.  mime_validator is
   never used and left out. *)
Definition mime_said (cfg : config) (meta : bool) (mt : bytes) : bool * bytes :=
  let g := if meta then str "metadata.mime-types" else str "resource.mime-types" in
  let wt := if meta then str "metadata" else str "resource" in
  match Config_Find cfg g mt with
  | Some _ => (false, [])
  | None =>
      let out := str "Illegal mime-type for " ++ wt ++ str ", pick one of:" ++ [10] in
      (true, match Config_Iter mime_print cfg g out with Some (out', _) => out' | None => out end)
  end.
