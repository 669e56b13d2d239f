(* Property theorems C68: what is said about MIME types which are not allowed.  Statements only. *)
From Coq Require Import String.
From Verif Require Import Base ConfigModel CmdModel MimeModel MimeSpec MimeMain.
Open Scope string_scope.
Open Scope list_scope.
Open Scope N_scope.

(* C68: a type which is refused is refused with a list, one to a line, of exactly the types which
   are not, letter case aside; *)
Theorem C68_list : forall content cfg meta mt, Config_Read content = Some cfg -> mime_type cfg meta mt = false ->
  exists rest names, mime_said cfg meta mt = (true, first_line (if meta then str "metadata" else str "resource") ++ rest) /\ lists rest names /\
    forall t, mime_type cfg meta t = true <-> exists n, In n names /\ lower n = lower t.
Proof. exact refused_list. Qed.
Print Assumptions C68_list.
Example C68_case : exists cfg, Config_Read ex_conf = Some cfg /\ mime_type cfg false (str "text/html") = false /\ mime_type cfg false (str "IMAGE/PNG") = true /\
  mime_said cfg false (str "text/html") = (true, first_line (str "resource") ++ [9] ++ str "text/plain" ++ [10; 9] ++ str "image/png" ++ [10]).
Proof. exact mime_case. Qed.

(* the list can be read in one way; *)
Theorem C68_unique : forall t a, lists t a -> forall b, lists t b -> a = b.
Proof. exact lists_unique. Qed.
Print Assumptions C68_unique.

(* nothing is said about others. *)
Theorem C68_quiet : forall cfg meta mt, mime_type cfg meta mt = true -> mime_said cfg meta mt = (false, []).
Proof. exact said_nothing. Qed.
Print Assumptions C68_quiet.
