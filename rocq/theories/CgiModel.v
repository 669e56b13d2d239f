(* Model of what get and cgi print: /repo/main_get.c, /repo/main_cgi.c and the
   parts of /repo/getjob.c they use. *)
From Coq Require Import String.
From Verif Require Import Base IndexModel HeaderModel GzipModel ProgModel StoreModel.
Open Scope string_scope.
Open Scope list_scope.
Open Scope N_scope.

(* The loop of GetJob_TotalLength, getjob.c:278-285.  The sum is an off_t. *)
Fixpoint total_loop (gzip : bool) (segs : list getjobseg) (sum : Z) : res Z :=
  match segs with
  | [] => Ok sum
  | g :: r =>
      let* im := if gzip then Ok (g_blen g) else Header_Get_Number (g_hdr g) (str "Content-Length") in
      let* _ := guard (0 <? im)%Z in
      if (2 ^ 63 <=? sum + im)%Z then UB else total_loop gzip r (sum + im)%Z
  end.

(* GetJob_TotalLength, getjob.c:268-286 *)
Definition GetJob_TotalLength (gzip : bool) (segs : list getjobseg) : res Z := total_loop gzip segs 0.

(* GetJob_IsSegmented, getjob.c:289-299.  There is at least one segment. *)
Definition GetJob_IsSegmented (segs : list getjobseg) : bool :=
  match segs with
  | _ :: _ :: _ => true
  | _ => false
  end.

(* GetJob_Header, getjob.c:229-241 *)
Definition GetJob_Header (first : bool) (segs : list getjobseg) : res header :=
  match (if first then segs else rev segs) with
  | g :: _ => Ok (g_hdr g)
  | [] => Abort
  end.

(* AN(p) for what Header_Get has returned *)
Definition there (p : option bytes) : res bytes := match p with Some v => Ok v | None => Abort end.

(* GetJob_Headers, getjob.c:302-336 *)
Definition GetJob_Headers (prefix : bytes) (segs : list getjobseg) : res bytes :=
  let* gjs := GetJob_Header true segs in
  let* gjl := GetJob_Header false segs in
  if negb (GetJob_IsSegmented segs) then Ok (Header_Serialize prefix gjs)
  else
    let hdr := Header_Clone gjs in
    let* p := there (Header_Get gjl (str "WARC-Segment-Total-Length")) in
    let* hdr := Header_Set hdr (str "Content-Length") p in
    let* p := there (Header_Get gjs (str "WARC-Payload-Digest")) in
    let* hdr := Header_Set hdr (str "WARC-Block-Digest") p in
    Ok (Header_Serialize prefix hdr).

(* strstr(p, s) != NULL *)
Fixpoint strstr (p s : bytes) : bool :=
  bytes_eqb (firstn (List.length s) p) s || match p with [] => false | _ :: r => strstr r s end.

Section Cgi.
Variable C : conf.
Variable L : zlib.

(* main_get, main_get.c:82-191: what is printed as headers, and what is written to
   the output.  None is exit(1).  The options are given as they are in the end;
   which of the three files things go to is left out, and so is the reason why
   there is nothing to get. *)
Definition main_get_out (zip quiet hdr_only : bool) (arg : bytes) : prog (option (bytes * bytes)) :=
  let! gj := GetJob_New C arg in
  match gj with
  | None => Ret None
  | Some segs =>
      let! h := if quiet then Ret [] else lift (GetJob_Headers (c_prefix C) segs) in
      let! d := if hdr_only then Ret [] else get_body C L zip segs in
      Ret (Some (h, d))
  end.

(* The environment of a CGI program *)
Record cgi_env := mkEnv {
  env_gateway : option bytes;    (* GATEWAY_INTERFACE *)
  env_method : option bytes;     (* REQUEST_METHOD *)
  env_path : option bytes;       (* PATH_INFO *)
  env_accept : option bytes }.   (* HTTP_ACCEPT_ENCODING *)

Inductive cgi_out :=
| CgiUsage                  (* usage_cgi and exit(1) *)
| CgiError                  (* the page with Status: 501 Error; its wording is left out *)
| CgiPage (out : bytes).    (* everything printed *)

(* p == NULL || strcmp(p, s) *)
Definition env_is (p : option bytes) (s : string) : bool :=
  match p with Some v => bytes_eqb v (str s) | None => false end.

(* main_cgi, main_cgi.c:62-168, without options and arguments *)
Definition main_cgi (e : cgi_env) : prog cgi_out :=
  if negb (env_is (env_gateway e) "CGI/1.1") then Ret CgiUsage else
  if negb (env_is (env_method e) "GET") then Ret CgiUsage else
  match env_path e with
  | None => Ret CgiUsage
  | Some id =>
      let gzip := match env_accept e with Some p => strstr p (str "gzip") | None => false end in
      let id := match id with c :: r => if c =? 47 then r else id | [] => id end in
      let! gj := GetJob_New C id in
      match gj with
      | None => Ret CgiError
      | Some segs =>
          let gzip := if GetJob_IsSegmented segs then false else gzip in
          let! hdr := lift (GetJob_Header true segs) in
          let ct := match Header_Get hdr (str "Content-Type") with
                    | Some v => v
                    | None => str "application/binary"
                    end in
          let! o := lift (GetJob_TotalLength gzip segs) in
          let! d := if gzip then GetJob_Iter_gz L segs else GetJob_Iter segs in
          Ret (CgiPage (str "Content-Type: " ++ ct ++ [10] ++
                        (if gzip then str "Content-Encoding: gzip" ++ [10] else []) ++
                        str "Content-Length: " ++ dec (Z.to_N o) ++ [10] ++
                        str "Status: 200" ++ [10] ++ [10] ++ d))
      end
  end.
End Cgi.
