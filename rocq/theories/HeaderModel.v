(* Model of /repo/header.c and /repo/ident.c. *)
From Coq Require Import String.
From Verif Require Import Base IndexModel.
Open Scope string_scope.
Open Scope list_scope.
Open Scope N_scope.

(* struct hfield, header.c:46-52 *)
Record hfield := mkF { hf_name : bytes; hf_val : bytes }.

(* struct header, header.c:54-60; aa->prefix and aa->id_size are passed
   separately.  The list is in VTAILQ order. *)
Record header := mkH { h_id : bytes; h_fields : list hfield }.

(* Header_New, header.c:62-77 *)
Definition Header_New (id_size : N) : header :=
  mkH (repeat 95 (N.to_nat id_size)) [].

(* Header_Clone, header.c:103-125 *)
Definition Header_Clone (hd : header) : header :=
  mkH (h_id hd) (map (fun f => mkF (hf_name f) (hf_val f)) (h_fields hd)).

(* Header_Len, header.c:127-141, of the formatted value.  [int] is taken as
   wide enough. *)
Definition Header_Len (name val : bytes) : N := len name + 2 + len val + 2.

(* strchr(name, ':') == NULL, and not WARC-Record-ID: header.c:150-151, 173-174 *)
Definition settable (name : bytes) : bool :=
  negb (existsb (fun c => c =? 58) name) &&
  negb (caseeq name (str "WARC-Record-ID")).

(* Header_Delete, header.c:143-162 *)
Definition Header_Delete (hd : header) (name : bytes) : res header :=
  let* _ := guard (settable name) in
  Ok (mkH (h_id hd) (filter (fun f => negb (caseeq name (hf_name f))) (h_fields hd))).

(* The VTAILQ_FOREACH at header.c:178-188: the first field of that name is
   taken off the list. *)
Fixpoint take_field (name : bytes) (l : list hfield) : option hfield * list hfield :=
  match l with
  | [] => (None, [])
  | f :: l' =>
      if caseeq name (hf_name f) then (Some f, l')
      else let '(o, r) := take_field name l' in (o, f :: r)
  end.

(* The VTAILQ_FOREACH at header.c:193-203. *)
Fixpoint place_field (name : bytes) (hf : hfield) (l : list hfield) : res (list hfield) :=
  match l with
  | [] => Ok [hf]
  | f :: l' =>
      match casecmp name (hf_name f) with
      | Lt => Ok (hf :: l)
      | Eq => Abort
      | Gt => let* r := place_field name hf l' in Ok (f :: r)
      end
  end.

(* Header_Set, header.c:164-204; [val] is the value after formatting
   (vasprintf(3) does not fail).  A field that exists keeps its name. *)
Definition Header_Set (hd : header) (name val : bytes) : res header :=
  let* _ := guard (settable name) in
  let '(o, rest) := take_field name (h_fields hd) in
  let hf := mkF (match o with Some f => hf_name f | None => name end) val in
  let* l := place_field name hf rest in
  Ok (mkH (h_id hd) l).

(* Header_Get, header.c:206-217 *)
Fixpoint get_field (l : list hfield) (name : bytes) : option bytes :=
  match l with
  | [] => None
  | f :: l' => if caseeq name (hf_name f) then Some (hf_val f) else get_field l' name
  end.
Definition Header_Get (hd : header) (name : bytes) : option bytes :=
  get_field (h_fields hd) name.

(* The loop at header.c:230-235; signed overflow of intmax_t is UB. *)
Fixpoint num_loop (p : bytes) (r : N) : res Z :=
  match p with
  | [] => Ok (Z.of_N r)
  | c :: p' =>
      if (c <? 48) || (57 <? c) then Ok (-1)%Z
      else let r' := r * 10 + (c - 48) in
           if 2 ^ 63 <=? r' then UB else num_loop p' r'
  end.

(* Header_Get_Number, header.c:219-237 *)
Definition Header_Get_Number (hd : header) (name : bytes) : res Z :=
  match Header_Get hd name with
  | None => Ok (-1)%Z
  | Some p => num_loop p 0
  end.

Definition crlf : bytes := [13; 10].

(* header.c:260-268 *)
Definition field_line (f : hfield) : bytes := hf_name f ++ [58; 32] ++ hf_val f ++ crlf.

(* Header_Serialize, header.c:239-275, with level == -1: the text.  Gzip_Vsb
   is modelled in GzipModel.v. *)
Definition Header_Serialize (prefix : bytes) (hd : header) : bytes :=
  str "WARC/1.1" ++ crlf ++ str "WARC-Record-ID: <" ++ prefix ++ h_id hd ++ [62] ++ crlf ++
  concat (map field_line (h_fields hd)) ++ crlf.

(* Header_Get_Id, header.c:277-285 *)
Definition Header_Get_Id (hd : header) : bytes := h_id hd.

(* Header_Set_Id, header.c:287-298 *)
Definition Header_Set_Id (id_size : N) (hd : header) (id : bytes) : res header :=
  let* _ := guard (forallb is_graph id) in
  let* _ := guard (id_size <=? len id) in
  Ok (mkH (firstn (N.to_nat id_size) id) (h_fields hd)).

(* Header_Set_Ref, header.c:316-327 *)
Definition Header_Set_Ref (prefix : bytes) (id_size : N) (hd : header) (name ref : bytes)
  : res header :=
  let* _ := guard (id_size <=? len ref) in
  Header_Set hd name ([60] ++ prefix ++ firstn (N.to_nat id_size) ref ++ [62]).

(* strchr(3): the text before and after the first c *)
Fixpoint strchr (c : N) (s : bytes) : option (bytes * bytes) :=
  match s with
  | [] => None
  | x :: s' => if x =? c then Some ([], s')
               else match strchr c s' with
                    | Some (a, b) => Some (x :: a, b)
                    | None => None
                    end
  end.

(* strrchr(3): the text before and after the last c *)
Definition strrchr (c : N) (s : bytes) : option (bytes * bytes) :=
  match strchr c (rev s) with
  | Some (a, b) => Some (rev b, rev a)
  | None => None
  end.

(* header.c:373-385: the value of the WARC-Record-ID line, without " " *)
Definition parse_id (prefix : bytes) (r : bytes) : res bytes :=
  match r with
  | 60 :: r' =>
      match strchr 62 r' with
      | Some (url, []) =>
          match strrchr 47 url with
          | Some (a, id) =>
              let* _ := guard (bytes_eqb (a ++ [47]) prefix) in Ok id
          | None => Abort
          end
      | _ => Abort
      end
  | _ => Abort
  end.

(* The loop at header.c:356-386.  The argument is the text behind the last
   line end; fuel: its length. *)
Fixpoint parse_loop (fuel : nat) (prefix : bytes) (hd : header) (p : bytes) : res header :=
  match fuel with
  | O => Fuel
  | S fu =>
      match p with
      | [] => Ok hd
      | _ =>
          match strchr 13 p with
          | Some (line, 10 :: q) =>
              match line with
              | [] => let* _ := guard (match q with [] => true | _ => false end) in Ok hd
              | _ =>
                  match strchr 58 line with
                  | Some (name, 32 :: val) =>
                      if bytes_eqb name (str "WARC-Record-ID") then
                        let* id := parse_id prefix val in
                        parse_loop fu prefix (mkH id (h_fields hd)) q
                      else
                        let* hd' := Header_Set hd name val in
                        parse_loop fu prefix hd' q
                  | _ => Abort
                  end
              end
          | _ => Abort
          end
      end
  end.

(* Header_Parse, header.c:337-388.  The text is a C string (no NUL).  The
   memcmp(3) at 353 is taken to stop at the first difference (it reads past
   the end of a text shorter than 27 bytes).  warc_record_id, NULL before the
   WARC-Record-ID line is seen, is [] here; that line is always the first. *)
Definition Header_Parse (prefix : bytes) (p : bytes) : res header :=
  let q v := str v ++ crlf ++ str "WARC-Record-ID: <" in
  let starts q := bytes_eqb (firstn (length q) p) q in
  let* _ := guard (starts (q "WARC/1.0") || starts (q "WARC/1.1")) in
  match strchr 10 p with
  | None => Abort
  | Some (_, p') => parse_loop (S (length p')) prefix (mkH [] []) p'
  end.

(* ------------------------------------------------------------------ *)
(* ident.c                                                              *)

Section Ident.
(* SHA256_End: digest as 64 lower case hex digits *)
Variable sha256hex : bytes -> bytes.

(* Ident_Create, ident.c:44-81.  The buffer has room for 65 bytes; writing
   ident[id_size] is inside it for id_size <= 64, and reading a digest shorter
   than id_size leaves it as it is. *)
Definition Ident_Create (id_size : N) (hd : header) (payload_digest : bytes) : res bytes :=
  match Header_Get hd (str "WARC-Type") with
  | None => Abort
  | Some typ =>
      let* ident :=
        if bytes_eqb typ (str "resource") then Ok payload_digest
        else if bytes_eqb typ (str "continuation") then Ok payload_digest
        else if bytes_eqb typ (str "warcinfo") then Ok payload_digest
        else if bytes_eqb typ (str "metadata") then
          match Header_Get hd (str "WARC-Refers-To") with
          | None => Abort
          | Some ref => Ok (sha256hex (ref ++ [10] ++ payload_digest ++ [10]))
          end
        else Abort in
      Ok (firstn (N.to_nat id_size) ident)
  end.

(* Ident_Set, ident.c:83-97 *)
Definition Ident_Set (prefix : bytes) (id_size : N) (hd : header)
    (digest : bytes) (input : option bytes) : res header :=
  match input with
  | None => let* id := Ident_Create id_size hd digest in Header_Set_Id id_size hd id
  | Some i =>
      match IDX_Valid_Id prefix id_size i with
      | IdOk _ => Header_Set_Id id_size hd i
      | _ => Abort
      end
  end.

(* Digest2Ident, ident.c:99-117 *)
Definition Digest2Ident (prefix : bytes) (id_size : N) (digest : bytes) : res bytes :=
  match IDX_Valid_Id prefix id_size (prefix ++ digest) with
  | IdOk _ => Ok (prefix ++ digest)
  | _ => Abort
  end.
End Ident.
