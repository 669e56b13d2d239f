(* Model of silo_mkparentdir, wsilo.c:80-111, on a tree of directories. *)
From Coq Require Import String.
From Verif Require Import Base.
Open Scope list_scope.
Open Scope N_scope.

(* What there is under an absolute path, given as a list of names.  Symbolic links, "." and
   "..", permissions and limits on names are not modelled. *)
Inductive kind := KDir | KFile.
Definition tree := list bytes -> option kind.

(* The names in a path *)
Fixpoint names_in (cur p : bytes) : list bytes :=
  match p with
  | [] => match cur with [] => [] | _ => [cur] end
  | c :: r =>
      if c =? 47 then match cur with [] => names_in [] r | _ => cur :: names_in [] r end
      else names_in (cur ++ [c]) r
  end.
Definition resolve (cwd : list bytes) (p : bytes) : list bytes :=
  match p with
  | c :: _ => if c =? 47 then names_in [] p else cwd ++ names_in [] p
  | [] => cwd
  end.
Fixpoint path_eqb (a b : list bytes) : bool :=
  match a, b with
  | [], [] => true
  | x :: a, y :: b => bytes_eqb x y && path_eqb a b
  | _, _ => false
  end.

(* stat(2): a directory, something else, ENOENT or ENOTDIR *)
Inductive stat := SDir | SOther | SNoent | SNotdir.
Definition blocked (T : tree) (l : list bytes) : bool :=
  existsb (fun k => match T (firstn k l) with Some KFile => true | _ => false end) (seq 0 (List.length l)).
Definition do_stat (T : tree) (cwd : list bytes) (p : bytes) : stat :=
  match p with
  | [] => SNoent
  | _ =>
      let l := resolve cwd p in
      match T l with
      | Some KDir => SDir
      | Some KFile => if last p 0 =? 47 then SNotdir else SOther
      | None => if blocked T l then SNotdir else SNoent
      end
  end.
(* mkdir(2): None if it fails *)
Definition do_mkdir (T : tree) (cwd : list bytes) (p : bytes) : option tree :=
  match p with
  | [] => None
  | _ =>
      let l := resolve cwd p in
      match T l, T (removelast l) with
      | None, Some KDir => Some (fun x => if path_eqb x l then Some KDir else T x)
      | _, _ => None
      end
  end.

(* A program with these calls.  PNever: it has called itself more often than allowed. *)
Inductive proc :=
| PDone (ok : bool)                    (* returns 0, or less *)
| PNever
| PStat (p : bytes) (k : stat -> proc)
| PMkdir (p : bytes) (k : bool -> proc).
Fixpoint then_ (m : proc) (k : bool -> proc) : proc :=
  match m with
  | PDone ok => k ok
  | PNever => PNever
  | PStat p k' => PStat p (fun s => then_ (k' s) k)
  | PMkdir p k' => PMkdir p (fun s => then_ (k' s) k)
  end.

(* strrchr(p, '/'): what is before the last slash *)
Fixpoint before_slash (p : bytes) : option bytes :=
  match p with
  | [] => None
  | c :: r =>
      match before_slash r with
      | Some d => Some (c :: d)
      | None => if c =? 47 then Some [] else None
      end
  end.

(* the test at wsilo.c:106-110: all but something which is not a directory is taken for
   success, even errors other than ENOENT *)
Definition is_fine (s : stat) : bool := match s with SOther => false | _ => true end.

(* silo_mkparentdir, wsilo.c:82-111; fuel: calls of itself *)
Fixpoint silo_mkparentdir (fuel : nat) (path : bytes) : proc :=
  match fuel with
  | O => PNever
  | S f =>
      let go p :=
        PStat p (fun s =>
          match s with
          | SNoent =>
              then_ (silo_mkparentdir f p) (fun ok =>
                if ok then PMkdir p (fun ok => if ok then PStat p (fun s => PDone (is_fine s)) else PDone false)
                else PDone false)
          | _ => PDone (is_fine s)
          end) in
      match before_slash path with
      | Some [] => PDone true                                      (* q == p, 92 *)
      | Some p => go p
      | None => go path
      end
  end.

(* run alone: the tree afterwards and what is returned; None: no end *)
Fixpoint alone (cwd : list bytes) (m : proc) (T : tree) : option (tree * bool) :=
  match m with
  | PDone ok => Some (T, ok)
  | PNever => None
  | PStat p k => alone cwd (k (do_stat T cwd p)) T
  | PMkdir p k =>
      match do_mkdir T cwd p with
      | Some T' => alone cwd (k true) T'
      | None => alone cwd (k false) T
      end
  end.
