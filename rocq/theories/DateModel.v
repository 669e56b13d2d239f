(* Model of the date put in records. *)
From Coq Require Import String.
From Verif Require Import Base HeaderModel.
Open Scope string_scope.
Open Scope list_scope.
Open Scope N_scope.

(* The days of the calendar gmtime_r(3) goes by, header.c:311, one after the other. *)
Definition leap (y : N) : bool := (y mod 4 =? 0) && (negb (y mod 100 =? 0) || (y mod 400 =? 0)).
Definition month_days (y m : N) : N :=
  match m with
  | 2 => if leap y then 29 else 28
  | 4 | 6 | 9 | 11 => 30
  | _ => 31
  end.
Definition next_day (x : N * N * N) : N * N * N :=
  let '(y, m, d) := x in
  if d <? month_days y m then (y, m, d + 1)
  else if m <? 12 then (y, m + 1, 1) else (y + 1, 1, 1).
Definition day (n : N) : N * N * N := N.iter n next_day (1970, 1, 1).

(* gmtime_r(3), header.c:311, for clocks set to 1970 or later *)
Record tm := mkTm { tm_day : N * N * N; tm_hour : N; tm_min : N; tm_sec : N }.
Definition gmtime_r (t : N) : tm := mkTm (day (t / 86400)) (t / 3600 mod 24) (t / 60 mod 60) (t mod 60).

(* strftime(3) with "%Y-%m-%dT%H:%M:%SZ", header.c:312; that it gives 0 for texts of 100 bytes
   and more is left out: neither is 20 *)
Definition strftime (x : tm) : bytes :=
  let '(y, m, d) := tm_day x in
  dec y ++ str "-" ++ decpad 2 m ++ str "-" ++ decpad 2 d ++ str "T" ++
  decpad 2 (tm_hour x) ++ str ":" ++ decpad 2 (tm_min x) ++ str ":" ++ decpad 2 (tm_sec x) ++ str "Z".

(* The text Header_Set_Date sets, header.c:300-314, with the assertion; [t] is from time(3), of
   which failing is left out. *)
Definition Date_Text (t : N) : res bytes :=
  let buf := strftime (gmtime_r t) in
  if len buf =? 20 then Ok buf else Abort.

(* Header_Set_Date, header.c:300-314 *)
Definition Header_Set_Date (t : N) (hdr : header) : res header :=
  let* buf := Date_Text t in
  Header_Set hdr (str "WARC-Date") buf.
