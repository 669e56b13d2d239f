(* Specification of the commands which list identifiers. *)
From Coq Require Import String.
From Verif Require Import Base IndexModel IndexSpec HeaderModel HeaderSpec ProgModel StoreModel StoreSpec.
Open Scope string_scope.
Open Scope list_scope.
Open Scope N_scope.

(* ------------------------------------------------------------------ *)
(* dumpindex                                                            *)

(* Value of a hexadecimal numeral *)
Definition hex_digit (c : N) : N := if c <? 58 then c - 48 else c - 87.
Fixpoint hex_value (s : bytes) : N :=
  match s with
  | [] => 0
  | c :: r => hex_digit c * 16 ^ len r + hex_value r
  end.

(* One or more blanks *)
Definition gap (b : bytes) : Prop := b <> [] /\ Forall (fun c => c = 32) b.

(* The line shows the entry: identifier (24 digits), flags, silo, offset, continuation
   (8 digits). *)
Definition shows (e : ixent) (l : bytes) : Prop := exists fl si off g1 g2,
  l = e_key e ++ str " 0x" ++ fl ++ g1 ++ si ++ g2 ++ off ++ str " " ++ e_cont e ++ [10] /\
  List.length (e_key e) = 24%nat /\ List.length (e_cont e) = 8%nat /\
  List.length fl = 8%nat /\ hexstr fl /\ hex_value fl = e_flags e /\
  numeral si /\ dec_value si = e_silo e /\ numeral off /\ dec_value off = e_off e /\ gap g1 /\ gap g2.

(* What the words for -t stand for. *)
Definition word_flag (t : option bytes) (e : ixent) : Prop :=
  match t with
  | None => True
  | Some w => exists fl, In (w, fl) [(str "warcinfo", 2); (str "resource", 4); (str "metadata", 8)] /\ e_flags e = fl
  end.
Definition known_word (t : option bytes) : Prop :=
  match t with None => True | Some w => In w [str "warcinfo"; str "resource"; str "metadata"] end.

(* What the arguments ask for, in their order; without arguments everything, once. *)
Definition asks (args : list bytes) : list (option bytes) :=
  match args with [] => [None] | _ => map Some args end.

(* ------------------------------------------------------------------ *)
(* byid                                                                 *)

(* An argument: some digits, after the prefix or not. *)
Definition frag (prefix arg f : bytes) : Prop :=
  hexstr f /\ (arg = f \/ exists p, lower p = lower prefix /\ arg = p ++ f).

(* Anything else *)
Definition no_frag (prefix arg : bytes) : Prop := forall f, ~ frag prefix arg f.

(* The line for a record *)
Definition id_line (w : wrec) (l : bytes) : Prop := exists t,
  has (wr_hdr w) "WARC-Type" t /\ l = str "id " ++ h_id (wr_hdr w) ++ str " wt " ++ t ++ [10].

(* The records of the archive which the digits ask for, each once. *)
Definition its_records (C : conf) (L : zlib) (s : fs) (f : bytes) (ps : list part) : Prop :=
  NoDup (map p_ent ps) /\ forall p, In p ps <->
    in_archive C L s (p_silo p) (p_off p) (p_rec p) (p_ent p) /\ asked (Some f) (p_ent p).

(* The identifier of the record begins with the digits. *)
Definition begins (f : bytes) (w : wrec) : Prop := exists rest, lower (h_id (wr_hdr w)) = lower f ++ rest.
