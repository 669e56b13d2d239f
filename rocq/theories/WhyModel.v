(* Looking up an object with the reason why there is none, and what cgi and get make of
   it.  getjob_iter and GetJob_New are those of StoreModel.v with gj->err added. *)
From Coq Require Import String.
From Verif Require Import Base IndexModel HeaderModel ProgModel StoreModel CgiModel CmdModel GetcModel.
Open Scope string_scope.
Open Scope list_scope.
Open Scope N_scope.

(* The strings returned by IDX_Valid_Id, index.c:167-173 *)
Definition id_text (v : idverdict) : bytes :=
  match v with
  | IdOk _ => []
  | IdWrongPrefix => str "ID is invalid (wrong prefix?)"
  | IdNonHex => str "ID is invalid (non-hex characters)"
  | IdTooShort => str "ID is invalid (too short)"
  | IdTooLong => str "ID is invalid (too long)"
  end.

Section Why.
Variable C : conf.
Variable L : zlib.

(* getjob_iter, getjob.c:70-153: returns 0, -1 with gj->err set, or 1 *)
Inductive why_res := WNext | WErr (m : bytes) | WGot (g : getjobseg).
Definition why_iter (id : bytes) (segs : list getjobseg) (e : ixent) : prog why_res :=
  let! f := sys (CReadSilo (e_silo e)) in
  match f with
  | None => Die DAbort
  | Some s =>
      let! h := lift (Rsilo_ReadHeader C s (e_off e)) in
      match h with
      | None => Die DAbort
      | Some (hd, bl, boff) =>
          let p := Header_Get_Id hd in
          if flag (e_flags e) IDX_F_WARCINFO && caseeq p id then Ret (WErr (str "ID is warcinfo segment")) else
          let got n := Ret (WGot (mkG (e_silo e) boff bl hd (e_flags e) (e_cont e) n)) in
          match segs with
          | [] =>
              if negb (caseeq p id) then Ret WNext
              else if flag (e_flags e) IDX_F_SEGMENTED && negb (flag (e_flags e) IDX_F_FIRSTSEG)
              then Ret (WErr (str "ID is continuation segment"))
              else got 1
          | last :: _ =>
              match Header_Get hd (str "WARC-Segment-Origin-ID") with
              | None => Die DAbort
              | Some o =>
                  let! _ := assert (nth 0 o 0 =? 60) in
                  let o := skipn 1 o in
                  let pl := List.length (c_prefix C) in
                  let! _ := assert (bytes_eqb (firstn pl o) (c_prefix C)) in
                  let o := skipn pl o in
                  let! _ := assert (nth (N.to_nat (c_idsize C)) o 0 =? 62) in
                  let! _ := assert (len o =? c_idsize C + 1) in
                  if negb (ncaseeq (N.to_nat (c_idsize C)) o id) then Ret WNext else
                  let! im := lift (Header_Get_Number hd (str "WARC-Segment-Number")) in
                  let! _ := assert (0 <=? im)%Z in
                  let segno := Z.to_N (im mod 2 ^ 32) in
                  if negb (segno =? (g_segno last + 1) mod 2 ^ 32)
                  then Ret (WErr (str "Index Inconsistency: Continuation out of order."))
                  else got segno
              end
          end
      end
  end.

Fixpoint why_iters (id : bytes) (segs : list getjobseg) (es : list ixent) : prog why_res :=
  match es with
  | [] => Ret WNext
  | e :: r =>
      let! x := why_iter id segs e in
      match x with WNext => why_iters id segs r | _ => Ret x end
  end.

(* The loop at getjob.c:202-225; on the left what is printed into the vsb.  gj->err is
   still as set at 200 if the callback never returned -1. *)
Fixpoint why_loop (fuel : nat) (id : bytes) (segs : list getjobseg) (nid : bytes)
  : prog (bytes + list getjobseg) :=
  match fuel with
  | O => Die DFuel
  | S fu =>
      let! es := sys (CIdxIter nid) in
      let! x := why_iters id segs es in
      match x with
      | WNext => Ret (inl (str "ID not found"))
      | WErr m => Ret (inl m)
      | WGot g =>
          let! _ := assert (negb (flag (g_flag g) IDX_F_WARCINFO)) in
          if negb (flag (g_flag g) IDX_F_SEGMENTED) then
            let! _ := assert (negb (flag (g_flag g) IDX_F_FIRSTSEG)) in
            let! _ := assert (negb (flag (g_flag g) IDX_F_LASTSEG)) in
            let! _ := assert (bytes_eqb (g_cont g) (str "00000000")) in
            let! _ := assert (match segs with [] => true | _ => false end) in
            Ret (inr [g])
          else if flag (g_flag g) IDX_F_LASTSEG then Ret (inr (rev (g :: segs)))
          else why_loop fu id (g :: segs) (g_cont g)
      end
  end.

(* GetJob_New, getjob.c:180-227 *)
Definition GetJob_Why (id : bytes) : prog (bytes + list getjobseg) :=
  match IDX_Valid_Id (c_prefix C) (c_idsize C) id with
  | IdOk nid => why_loop (c_fuel C) nid [] nid
  | v => Ret (inl (id_text v))
  end.

(* main_cgi, main_cgi.c:62-168: exit status and standard output; args are the arguments
   behind argv[0], e the environment *)
Definition cgi_cmd (args : list bytes) (e : cgi_env) : prog (N * bytes) :=
  let (ev, ops) := getopt "h" args in
  match ev, ops with
  | [], [] =>
      if negb (env_is (env_gateway e) "CGI/1.1") then Ret (1, []) else
      if negb (env_is (env_method e) "GET") then Ret (1, []) else
      match env_path e with
      | None => Ret (1, [])
      | Some id =>
          let gzip := match env_accept e with Some p => strstr p (str "gzip") | None => false end in
          let id := match id with c :: r => if c =? 47 then r else id | [] => id end in
          let! gj := GetJob_Why id in
          match gj with
          | inl m => Ret (0, str "Content-Type: text/html" ++ [10] ++ str "Status: 501 Error" ++ [10] ++ [10] ++
                             str "<html>" ++ str "<pre>" ++ m ++ [10] ++ str "</pre>" ++ str "</html>")
          | inr segs =>
              let gzip := if GetJob_IsSegmented segs then false else gzip in
              let! hdr := lift (GetJob_Header true segs) in
              let ct := match Header_Get hdr (str "Content-Type") with
                        | Some v => v
                        | None => str "application/binary"
                        end in
              let! o := lift (GetJob_TotalLength gzip segs) in
              let! d := if gzip then GetJob_Iter_gz L segs else GetJob_Iter segs in
              Ret (0, str "Content-Type: " ++ ct ++ [10] ++
                      (if gzip then str "Content-Encoding: gzip" ++ [10] else []) ++
                      str "Content-Length: " ++ dec (Z.to_N o) ++ [10] ++
                      str "Status: 200" ++ [10] ++ [10] ++ d)
          end
      end
  | _, _ => Ret (1, [])
  end.

(* main_get, main_get.c:82-191, up to main_get.c:152: what it prints on standard error if there is
   nothing to get; None: there is *)
Definition get_why (args : list bytes) : prog (option bytes) :=
  let (ev, ops) := getopt "ho:nqz" args in
  match get_opts (mkGO None false false false) ev, ops with
  | Some o, [arg] =>
      let! gj := GetJob_Why arg in
      match gj with inl m => Ret (Some (m ++ [10])) | inr _ => Ret None end
  | _, _ => Die DExit
  end.
End Why.
