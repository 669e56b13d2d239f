(* Specification of what cgi and get print. *)
From Coq Require Import String.
From Verif Require Import Base HeaderModel HeaderSpec InflateSpec GzipModel ProgModel StoreModel StoreSpec CgiModel.
Open Scope string_scope.
Open Scope list_scope.
Open Scope N_scope.

(* A field of a CGI reply: its name has neither LF nor ':' and is not empty, its
   value has no LF. *)
Definition reply_field (f : bytes * bytes) : Prop :=
  fst f <> [] /\ ~ In 10 (fst f) /\ ~ In 58 (fst f) /\ ~ In 10 (snd f).

(* A CGI reply (RFC 3875, section 6): fields, an empty line, the body. *)
Definition reply (out : bytes) (fields : list (bytes * bytes)) (body : bytes) : Prop :=
  Forall reply_field fields /\
  out = flat_map (fun f => fst f ++ str ": " ++ snd f ++ [10]) fields ++ [10] ++ body.

(* The identifier in the path of the URL is behind its first '/'. *)
Definition path_id (path arg : bytes) : Prop :=
  path = 47 :: arg \/ path = arg /\ forall r, path <> 47 :: r.

(* A GET request for that identifier. *)
Definition cgi_get (e : cgi_env) (arg : bytes) : Prop :=
  env_gateway e = Some (str "CGI/1.1") /\ env_method e = Some (str "GET") /\
  exists path, env_path e = Some path /\ path_id path arg.

(* The client says something about gzip. *)
Definition mentions_gzip (e : cgi_env) : Prop :=
  exists u v, env_accept e = Some (u ++ str "gzip" ++ v).

(* The header printed for an object: its identifier b, and what was declared when
   it was stored; length and digest of the whole of it. *)
Definition tells (C : conf) (sha : bytes -> bytes) (r : request) (b : bytes) (hd : header) : Prop :=
  c_prefix C ++ h_id hd = b /\ wf_header hd /\ describes sha hd (List.concat (r_data r)) /\
  has hd "WARC-Type" (req_type r) /\ has hd "Content-Type" (r_mime r) /\
  (r_meta r = true -> has hd "WARC-Refers-To" (str "<" ++ full_ref C r ++ str ">")) /\
  hasnt hd "WARC-Segment-Total-Length".

(* What is answered: declared type, length and status; the object itself, or,
   only if gzip was mentioned, something which gunzip(1) makes the object of. *)
Definition cgi_answer (e : cgi_env) (mime data out : bytes) : Prop := exists (gz : bool) body,
  reply out ([(str "Content-Type", mime)] ++ (if gz then [(str "Content-Encoding", str "gzip")] else []) ++
             [(str "Content-Length", dec (len body)); (str "Status", str "200")]) body /\
  (if gz then mentions_gzip e /\ gunzip body = Some (data, []) else body = data).
