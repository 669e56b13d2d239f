(* What is wrong with an identifier, and the page cgi answers with. *)
From Coq Require Import String.
From Verif Require Import Base IndexModel IndexSpec HeaderModel ProgModel StoreModel StoreSpec CgiModel CgiSpec CmdModel CmdSpec GetcModel GetcSpec WhyModel.
Open Scope string_scope.
Open Scope list_scope.
Open Scope N_scope.

(* the identifier without the prefix of the archive, if it has it *)
Definition bare (prefix id rest : bytes) : Prop :=
  (exists p, lower p = lower prefix /\ id = p ++ rest) \/
  rest = id /\ forall p r, lower p = lower prefix -> id <> p ++ r.

Inductive fault (prefix : bytes) (size : N) (id : bytes) : bytes -> Prop :=
| f_prefix r : bare prefix id r -> In 58 r \/ In 47 r -> fault prefix size id (str "ID is invalid (wrong prefix?)")
| f_digits r : bare prefix id r -> ~ In 58 r -> ~ In 47 r -> ~ hexstr r -> fault prefix size id (str "ID is invalid (non-hex characters)")
| f_short r : bare prefix id r -> hexstr r -> len r < size -> fault prefix size id (str "ID is invalid (too short)")
| f_long r : bare prefix id r -> hexstr r -> size < len r -> fault prefix size id (str "ID is invalid (too long)").

(* all that is ever said *)
Definition all_reasons : list bytes :=
  [ str "ID is invalid (wrong prefix?)"; str "ID is invalid (non-hex characters)"; str "ID is invalid (too short)"; str "ID is invalid (too long)";
    str "ID not found"; str "ID is warcinfo segment"; str "ID is continuation segment"; str "Index Inconsistency: Continuation out of order." ].

Definition error_page (m out : bytes) : Prop :=
  reply out [(str "Content-Type", str "text/html"); (str "Status", str "501 Error")] (str "<html><pre>" ++ m ++ [10] ++ str "</pre></html>").

(* a request cgi takes *)
Definition cgi_fine (e : cgi_env) : Prop :=
  env_gateway e = Some (str "CGI/1.1") /\ env_method e = Some (str "GET") /\ env_path e <> None.

(* Both cgi and get, asked for arg in this state, say m; get ends with status 1, nothing is
   changed. *)
Definition says (C : conf) (L : zlib) (s : fs) (arg m : bytes) : Prop :=
  (forall args e, written [] [o_h] [] [] args -> cgi_get e arg ->
     exists out, run (cgi_cmd C L args e) s = (s, inl (0, out)) /\ error_page m out) /\
  (forall os args openable, written get_vals get_flags os [arg] args -> ~ In (o_h, None) os ->
     run (get_why C args) s = (s, inl (Some (m ++ [10]))) /\ exists o, run (get_cmd C L openable args) s = (s, inl (1, o))).
