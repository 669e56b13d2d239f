(* Specification of command lines. *)
From Coq Require Import String.
From Verif Require Import Base IndexModel IndexSpec ProgModel StoreModel ConfigModel ConfigSpec CmdModel.
Open Scope string_scope.
Open Scope list_scope.
Open Scope N_scope.

(* How options and operands are written as arguments.  Options with a value: those in
   [vals]; without: those in [flags].  Flags may be written together, and before an option with a value;
   the value is the rest of the argument or the next one. *)
Section Written.
Variables vals flags : bytes.
Definition flag_opts (fl : bytes) : list (N * option bytes) := map (fun c => (c, None)) fl.
(* the first of these is not taken for an option *)
Definition plain (ops : list bytes) : Prop :=
  match ops with (c :: _ :: _) :: _ => c <> 45 | _ => True end.
Inductive written : list (N * option bytes) -> list bytes -> list bytes -> Prop :=
| wr_end ops : plain ops -> written [] ops ops
| wr_dashes ops : written [] ops (str "--" :: ops)
| wr_flags fl os ops args : fl <> [] -> Forall (fun c => In c flags) fl -> written os ops args ->
    written (flag_opts fl ++ os) ops ((45 :: fl) :: args)
| wr_next fl c v os ops args : Forall (fun c => In c flags) fl -> In c vals -> written os ops args ->
    written (flag_opts fl ++ (c, Some v) :: os) ops ((45 :: fl ++ [c]) :: v :: args)
| wr_joined fl c v os ops args : Forall (fun c => In c flags) fl -> In c vals -> v <> [] -> written os ops args ->
    written (flag_opts fl ++ (c, Some v) :: os) ops ((45 :: fl ++ c :: v) :: args).
End Written.

(* the values given for an option *)
Definition given (c : N) (os : list (N * option bytes)) : list bytes :=
  flat_map (fun o => match o with (x, Some v) => if x =? c then [v] else [] | _ => [] end) os.
Definition at_most_one (l : list bytes) (o : option bytes) : Prop :=
  l = [] /\ o = None \/ exists v, l = [v] /\ o = Some v.

(* letters *)
Definition o_c := 99. Definition o_h := 104. Definition o_i := 105. Definition o_j := 106.
Definition o_m := 109. Definition o_r := 114. Definition o_t := 116.
(* the options of store, and the global ones *)
Definition store_vals : bytes := [o_i; o_m; o_t; o_r].
Definition store_flags : bytes := [o_h].
Definition main_vals : bytes := [o_c].
Definition main_flags : bytes := [o_h; o_j].

(* An input delivers the pieces ds, none empty, and then ends or fails. *)
Definition delivers (l : list rd) (ds : list bytes) (e : list rd) : Prop :=
  l = map RData ds ++ e /\ ~ In [] ds /\ (e = [] \/ exists r, e = RData [] :: r \/ e = RErr :: r).
Definition ends (e : list rd) : Prop := match e with RErr :: _ => False | _ => True end.

(* which file is meant: None is standard input *)
Inductive operand : list bytes -> option bytes -> Prop :=
| op_none : operand [] None
| op_dash : operand [str "-"] None
| op_file f : f <> str "-" -> operand [f] (Some f).

(* What the options and operands of store ask for, in a configuration with these
   sections. *)
Record asks (C : conf) (cfg : config) (input : option bytes -> option (list rd))
    (os : list (N * option bytes)) (ops : list bytes) (r : request) : Prop := {
  as_help : ~ In (o_h, None) os;
  as_type : given o_t os = [] /\ r_meta r = false \/
    exists v, given o_t os = [v] /\
      (lower v = str "resource" /\ r_meta r = false \/ lower v = str "metadata" /\ r_meta r = true);
  as_mime : r_mime r = last (given o_m os) (str "application/octet-stream");
  as_allowed : exists sc e,
    first_section cfg (if r_meta r then str "metadata.mime-types" else str "resource.mime-types") sc /\
    In e (s_entries sc) /\ entry_matches (r_mime r) e;
  as_ref : if r_meta r then given o_r os = [r_ref r] /\ exists nid, good_id (c_prefix C) (c_idsize C) (r_ref r) nid
           else given o_r os = [] /\ r_ref r = [];
  as_ident : at_most_one (given o_i os) (r_ident r) /\
    forall i, r_ident r = Some i -> r_meta r = true /\ exists nid, good_id (c_prefix C) (c_idsize C) i nid;
  as_input : r_data r <> [] /\ exists f l e, operand ops f /\ input f = Some l /\ delivers l (r_data r) e /\ ends e }.

(* reading stops with an error after something has been read *)
Definition breaks_off (l : list rd) : Prop := exists ds r, ds <> [] /\ delivers l ds (RErr :: r).

(* main.c: configuration files in the order of preference *)
Definition candidates (home : option bytes) : list bytes :=
  match home with Some h => [h ++ str "/.aardwarc.conf"] | None => [] end ++
  [str "/etc/aardwarc.conf"; str "/usr/local/etc/aardwarc.conf"].

(* Which configuration is used: that of the last -c; else of the first candidate
   which can be used. *)
Definition uses (load : bytes -> option aardwarc) (home : option bytes) (cs : list bytes) (aa : aardwarc) : Prop :=
  match rev cs with
  | f :: _ => load f = Some aa
  | [] => exists a f b, candidates home = a ++ f :: b /\ load f = Some aa /\ forall g, In g a -> load g = None
  end.

Definition names_of (c : command) : bytes :=
  match c with
  | CAudit => str "audit" | CByid => str "byid" | CCgi => str "cgi" | CDumpindex => str "dumpindex" | CFilter => str "filter"
  | CGet => str "get" | CHousekeeping => str "housekeeping" | CInfo => str "info" | CMksilo => str "mksilo" | CRebuild => str "rebuild"
  | CReindex => str "reindex" | CStevedore => str "stevedore" | CStore => str "store" | CStow => str "stow" | CTestbytes => str "_testbytes"
  end.
