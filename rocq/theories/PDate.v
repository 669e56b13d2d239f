(* Property theorems C67: the dates of records.  Statements only. *)
From Coq Require Import String.
From Verif Require Import Base HeaderModel HeaderSpec StoreSpec DateModel DateSpec DateMain.
Open Scope string_scope.
Open Scope list_scope.
Open Scope N_scope.

(* C67: from 1970 to the end of 9999 there is a date for every second, *)
Theorem C67_written : forall t, t < year_10000 -> exists text, Date_Text t = Ok text.
Proof. exact date_written. Qed.
Print Assumptions C67_written.

(* it is what ISO 8601 and POSIX have for it, and no other text is, *)
Theorem C67_date : forall text t, stands_for text t <-> Date_Text t = Ok text.
Proof. exact date_iff. Qed.
Print Assumptions C67_date.

(* a date can be read in one way, *)
Theorem C67_read : forall text t t', Date_Text t = Ok text -> Date_Text t' = Ok text -> t = t'.
Proof. exact date_read. Qed.
Print Assumptions C67_read.

(* and dates sort as the times do. *)
Theorem C67_order : forall t t' a a', Date_Text t = Ok a -> Date_Text t' = Ok a' -> lex a a' = (t ?= t').
Proof. exact date_sorts. Qed.
Print Assumptions C67_order.

(* It is what the theorems about storing ask of the date. *)
Theorem C67_ok : forall t text, Date_Text t = Ok text -> date_ok text.
Proof. exact date_is_ok. Qed.
Print Assumptions C67_ok.
Example C67_case : Date_Text 951782400 = Ok (str "2000-02-29T00:00:00Z") /\ Date_Text 0 = Ok (str "1970-01-01T00:00:00Z").
Proof. exact date_case. Qed.

(* Whatever else is set before and after, the date is in the header which is written, and is
   found again by reading it. *)
Theorem C67_header : forall prefix id_size id before after t,
  clean_prefix prefix -> clean_id id -> Forall (fun c => is_graph c = true) id -> len id = id_size ->
  Forall (fun o => ok_name (hop_name o) /\ match o with HSet n v => clean n /\ clean v | HDel _ => True end) (before ++ after) ->
  Forall (fun o => lower (hop_name o) <> lower (str "WARC-Date")) after -> t < year_10000 ->
  exists h1 h2 h3 h4 text, run_hops (Header_New id_size) before = Ok h1 /\ Header_Set_Date t h1 = Ok h2 /\
    run_hops h2 after = Ok h3 /\ Header_Set_Id id_size h3 id = Ok h4 /\
    Header_Parse prefix (Header_Serialize prefix h4) = Ok h4 /\ Header_Get h4 (str "WARC-Date") = Some text /\ stands_for text t.
Proof. exact date_kept. Qed.
Print Assumptions C67_header.
Definition ex_after : list hop := [HSet (str "Content-Type") (str "a/b"); HSet (str "WARC-Type") (str "resource")].
Example C67_header_case : clean_prefix (str "http://x/") /\ clean_id (str "00ff") /\
  Forall (fun o => ok_name (hop_name o) /\ match o with HSet n v => clean n /\ clean v | HDel _ => True end) ([] ++ ex_after) /\
  Forall (fun o => lower (hop_name o) <> lower (str "WARC-Date")) ex_after.
Proof.
  split; [|split; [|split]].
  - split; [split; vm_compute; intuition discriminate|]. split; [vm_compute; intuition discriminate|].
    exists (str "http:/" ++ str "/x"). reflexivity.
  - repeat split; vm_compute; intuition discriminate.
  - repeat constructor; vm_compute; intuition discriminate.
  - repeat constructor; vm_compute; discriminate.
Qed.

(* Refuted for later times: from the year 10000 on nothing can be stored. *)
Theorem C67_later_refuted : forall t, year_10000 <= t -> Date_Text t = Abort.
Proof. exact date_ends. Qed.
Print Assumptions C67_later_refuted.
