(* Specification of configuration files: what a file, written as a list of
   items with arbitrary spacing and comments, means. *)
From Coq Require Import String.
From Verif Require Import Base ConfigModel.
Open Scope list_scope.
Open Scope N_scope.

(* the end of a line: spaces and perhaps a comment *)
Record ending := mkEnd { en_space : bytes; en_comment : option bytes }.
Inductive item :=
| IBlank (e : ending)
| ISection (name : bytes) (e : ending)
| IEntry (lead name : bytes) (arg : option (bytes * bytes)) (e : ending).  (* arg: spaces, text *)

Definition write_end (e : ending) : bytes :=
  en_space e ++ match en_comment e with Some c => 35 :: c | None => [] end.
Definition write_item (i : item) : bytes :=
  match i with
  | IBlank e => write_end e
  | ISection n e => n ++ [58] ++ write_end e
  | IEntry l n a e =>
      l ++ n ++ match a with Some (sp, x) => sp ++ x | None => [] end ++ write_end e
  end.
Definition write_items (l : list item) : bytes := concat (map (fun i => write_item i ++ [10]) l).

Definition spaces (s : bytes) : Prop := Forall (fun c => is_space c = true) s.
Definition no_hash_nl (s : bytes) : Prop := ~ In 35 s /\ ~ In 10 s.
Definition ok_ending (e : ending) : Prop :=
  spaces (en_space e) /\ ~ In 10 (en_space e) /\
  match en_comment e with Some c => ~ In 10 c | None => True end.
(* neither first nor last character a space *)
Definition tight (s : bytes) : Prop :=
  match s with [] => False | c :: _ => is_space c = false end /\
  match rev s with [] => False | c :: _ => is_space c = false end.
Definition ok_item (i : item) : Prop :=
  match i with
  | IBlank e => ok_ending e
  | ISection n e => tight n /\ no_hash_nl n /\ ~ In 58 n /\ ok_ending e
  | IEntry l n a e =>
      spaces l /\ l <> [] /\ ~ In 10 l /\
      n <> [] /\ Forall (fun c => is_space c = false) n /\ ~ In 35 n /\
      match a with
      | Some (sp, x) => spaces sp /\ sp <> [] /\ ~ In 10 sp /\ tight x /\ no_hash_nl x
      | None => True
      end /\ ok_ending e
  end.

(* What the items mean: the entries following a section line, up to the next
   section line, belong to it. *)
Fixpoint own_entries (l : list item) : list entry :=
  match l with
  | [] => []
  | IBlank _ :: r => own_entries r
  | ISection _ _ :: _ => []
  | IEntry _ n a _ :: r =>
      mkE n (match a with Some (_, x) => Some x | None => None end) :: own_entries r
  end.
Fixpoint meaning (l : list item) : config :=
  match l with
  | [] => []
  | ISection n _ :: r => mkSc n (own_entries r) :: meaning r
  | _ :: r => meaning r
  end.

(* section names in order *)
Definition names (l : list item) : list bytes := map s_name (meaning l).

(* A text line without meaning: only spaces before the end or a '#'. *)
Definition empty_line (p : bytes) : Prop :=
  exists e, ok_ending e /\ p = write_end e.

(* a is the beginning of a file, up to the beginning of a line *)
Definition line_start (a : bytes) : Prop := a = [] \/ exists a', a = a' ++ [10].

(* letter case does not matter in section and entry names; '*' matches all *)
Definition first_section (cfg : config) (name : bytes) (sc : section) : Prop :=
  exists a b, cfg = a ++ sc :: b /\ lower (s_name sc) = lower name /\
    forall x, In x a -> lower (s_name x) <> lower name.
Definition entry_matches (name : bytes) (e : entry) : Prop :=
  e_name e = [42] \/ lower name = lower (e_name e).

(* the value of a setting: the only word in its section, else the default *)
Definition one_word (cfg : config) (name v : bytes) : Prop :=
  exists sc e, first_section cfg name sc /\ s_entries sc = [e] /\ e_arg e = None /\ e_name e = v.
Definition setting (cfg : config) (name dflt v : bytes) : Prop :=
  one_word cfg name v \/ v = dflt /\ forall w, ~ one_word cfg name w.

(* the settings which matter, given the number parsers *)
Definition settings (strtoul : bytes -> N) (vnum : bytes -> option N) (cfg : config) (aa : aardwarc) : Prop :=
  (exists sc e, first_section cfg (str "WARC-Record-ID") sc /\ s_entries sc = [e] /\ e_name e = aa_prefix aa /\
     (e_arg e = None /\ aa_id_size aa = 32 \/ exists p, e_arg e = Some p /\ strtoul p mod 2 ^ 32 = 4 * aa_id_size aa)) /\
  one_word cfg (str "silo.directory") (aa_silo_dirname aa) /\
  (exists v, setting cfg (str "silo.max_size") (str "3.5G") v /\ vnum v = Some (aa_silo_maxsize aa)) /\
  setting cfg (str "silo.basename") (str "%08u.warc.gz") (aa_silo_basename aa) /\
  (exists v n, setting cfg (str "index.sort_size") (str "10M") v /\ vnum v = Some n /\
     aa_index_sort_size aa = 32 * (n / 32)).

(* what the rest of the program relies on *)
Definition sane_conf (fmt : bytes -> bool) (aa : aardwarc) : Prop :=
  (exists q, aa_prefix aa = q ++ [47]) /\ 16 <= aa_id_size aa <= 64 /\
  (exists q, aa_silo_dirname aa = q ++ [47]) /\ fmt (aa_silo_basename aa) = true /\
  ~ In 47 (aa_silo_basename aa) /\
  aa_index_sort_size aa mod 32 = 0 /\ 4096 <= aa_index_sort_size aa.
