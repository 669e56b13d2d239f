(* Property theorems C37, C42: configuration files. *)
From Coq Require Import String.
From Verif Require Import Base ConfigModel ConfigSpec ConfigProofs.
Open Scope string_scope.
Open Scope list_scope.
Open Scope N_scope.

(* C37: a file of well-formed lines with distinct section names, whatever the
   spacing and comments, means what it says.  Missing: files with a malformed
   line, see C37_refuted. *)
Theorem C37_parse_partial : forall l, Forall ok_item l -> NoDup (names l) -> own_entries l = [] ->
  config_parse (write_items l) = (meaning l, None).
Proof. exact config_items. Qed.
Print Assumptions C37_parse_partial.
Example C37_case : Forall ok_item w_items /\ NoDup (names w_items) /\ own_entries w_items = [] /\
  meaning w_items = [mkSc (str "WARC-Record-ID") [mkE (str "http://x/") (Some (str "128"))];
                     mkSc (str "silo.max_size") [mkE (str "1G") None]] /\
  cfg_value (meaning w_items) (str "Silo.Max_Size") (str "3.5G") = str "1G" /\
  Config_Find (meaning w_items) (str "warc-record-id") (str "HTTP://x/") = Some (Some (str "128")).
Proof.
  split; [exact w_items_ok|]. split; [repeat constructor; cbn; intuition discriminate|].
  vm_compute. auto.
Qed.

(* C37: looking up a name in a section finds its first matching line, in the
   first section of that name. *)
Theorem C37_find : forall cfg sec name,
  match Config_Find cfg sec name with
  | Some a => exists sc e1 e e2, first_section cfg sec sc /\ s_entries sc = e1 ++ e :: e2 /\
      entry_matches name e /\ (forall x, In x e1 -> ~ entry_matches name x) /\ a = e_arg e
  | None => forall sc, first_section cfg sec sc -> forall e, In e (s_entries sc) -> ~ entry_matches name e
  end.
Proof. exact find_entry. Qed.
Print Assumptions C37_find.

(* C37: a single-valued setting is the only word of its section, or else its
   default *)
Theorem C37_get : forall cfg name dflt v, cfg_value cfg name dflt = v <-> setting cfg name dflt v.
Proof. exact get_value. Qed.
Print Assumptions C37_get.

(* C37: in any file, well-formed or not, a comment at the end of a line, a
   blank or comment line, and the newline at the end of the file make no
   difference. *)
Theorem C37_comment : forall a l c b, line_start a -> ~ In 10 l -> ~ In 10 c ->
  config_parse (a ++ l ++ 35 :: c ++ 10 :: b) = config_parse (a ++ l ++ 10 :: b).
Proof. exact comment_ignored. Qed.
Print Assumptions C37_comment.
Theorem C37_blank : forall a p b, line_start a -> empty_line p ->
  config_parse (a ++ p ++ 10 :: b) = config_parse (a ++ b).
Proof. exact blank_ignored. Qed.
Print Assumptions C37_blank.
Theorem C37_last : forall p, ~ In 10 p -> forall a, line_start a ->
  config_parse (a ++ p) = config_parse (a ++ p ++ [10]).
Proof. exact last_newline. Qed.
Print Assumptions C37_last.
Example C37_text_case : line_start (str "s:" ++ [10]) /\ empty_line (str "   # nothing") /\
  config_parse ((str "s:" ++ [10]) ++ str "   # nothing" ++ 10 :: str " key val") =
    ([mkSc (str "s") [mkE (str "key") (Some (str "val"))]], None).
Proof.
  split; [right; exists (str "s:"); reflexivity|]. split; [|vm_compute; reflexivity].
  exists (mkEnd [32; 32; 32] (Some (str " nothing"))). split; [|reflexivity]. item_ok.
Qed.

(* C37: bytes which cannot be in UTF-8 text, or NUL, are refused, others not. *)
Theorem C37_bytes : forall content, Config_Read content = None <->
  exists b, In b content /\ (b = 0 \/ b = 192 \/ b = 193 \/ 244 < b).
Proof. exact bad_refused. Qed.
Print Assumptions C37_bytes.
Example C37_bytes_case : Config_Read (str "s:" ++ [10; 32; 255]) = None /\ Config_Read (str "s:" ++ [10; 32; 195; 134]) <> None.
Proof. split; [reflexivity|vm_compute; discriminate]. Qed.

(* C37 does not hold for files with a malformed line: the file is still
   accepted, all lines behind the malformed one are ignored and defaults are
   used in their place. *)
Theorem C37_refuted : exists a b,
  ok_item (ISection (str "silo.max_size") (mkEnd [] None)) /\ ok_item (IEntry [9] (str "1G") None (mkEnd [] None)) /\
  line_start a /\ exists cfg,
  Config_Read (a ++ write_items [ISection (str "silo.max_size") (mkEnd [] None); IEntry [9] (str "1G") None (mkEnd [] None)] ++ b) = Some cfg /\
  cfg_value cfg (str "silo.max_size") (str "3.5G") = str "3.5G".
Proof. exact dropped. Qed.
Print Assumptions C37_refuted.

(* Likewise a value with a second word is replaced by the default. *)
Theorem C37_words_refuted : exists cfg,
  Config_Read (str "silo.max_size:" ++ [10; 9] ++ str "1G bytes" ++ [10]) = Some cfg /\
  cfg_value cfg (str "silo.max_size") (str "3.5G") = str "3.5G".
Proof. exact two_words. Qed.
Print Assumptions C37_words_refuted.

(* C42: an accepted configuration satisfies what the rest of the program
   relies on, whatever the number parsers say. *)
Theorem C42_accepted : forall strtoul vnum fmt cfg aa,
  AardWARC_New strtoul vnum fmt cfg = Some aa -> sane_conf fmt aa.
Proof. exact new_sane. Qed.
Print Assumptions C42_accepted.
(* C42: what is in use is what the file says, or the documented default *)
Theorem C42_settings : forall strtoul vnum fmt cfg aa,
  AardWARC_New strtoul vnum fmt cfg = Some aa -> settings strtoul vnum cfg aa.
Proof. exact new_settings. Qed.
Print Assumptions C42_settings.
Example C42_case : AardWARC_New (fun _ => 128) (fun _ => Some 1000000) (fun _ => true)
  [mkSc (str "WARC-Record-ID") [mkE (str "http://x/") (Some (str "128"))];
   mkSc (str "silo.directory") [mkE (str "/aa/") None]] =
  Some (mkAA (str "http://x/") 32 (str "/aa/") 1000000 (str "%08u.warc.gz") 1000000).
Proof. vm_compute. reflexivity. Qed.
