(* Property theorems C14-C17, C41: WARC headers and identifiers. *)
From Coq Require Import String Sorting.Sorted.
From Verif Require Import Base BaseLemmas IndexModel HeaderModel HeaderSpec HeaderProofs.
Open Scope string_scope.
Open Scope list_scope.
Open Scope N_scope.

(* C14: any sequence of set and delete succeeds; getting a name, in any letter
   case, gives what the last operation on that name left; the fields are in
   strictly increasing alphabetical order, so no name occurs twice. *)
Theorem C14_map : forall id_size ops, Forall (fun o => ok_name (hop_name o)) ops ->
  exists hd, run_hops (Header_New id_size) ops = Ok hd /\
    (forall n, Header_Get hd n = outcome None ops n) /\ StronglySorted name_lt (h_fields hd).
Proof. exact hops_map. Qed.
Print Assumptions C14_map.
Definition ex_hops : list hop :=
  [HSet (str "WARC-Type") (str "resource"); HSet (str "Content-Length") (str "12");
   HSet (str "warc-type") (str "metadata"); HDel (str "CONTENT-LENGTH");
   HSet (str "WARC-Date") (str "2020"); HSet (str "Content-Type") (str "a/b")].
Example C14_case : Forall (fun o => ok_name (hop_name o)) ex_hops /\
  match run_hops (Header_New 32) ex_hops with
  | Ok hd => h_fields hd = [mkF (str "Content-Type") (str "a/b"); mkF (str "WARC-Date") (str "2020");
                            mkF (str "WARC-Type") (str "metadata")]
  | _ => False
  end.
Proof.
  split; [|vm_compute; reflexivity].
  repeat constructor; vm_compute; intuition discriminate.
Qed.

(* C14: the identifier line and names with ':' are refused. *)
Theorem C14_refused : forall hd name val, ~ ok_name name ->
  Header_Set hd name val = Abort /\ Header_Delete hd name = Abort.
Proof. exact hop_refused. Qed.
Print Assumptions C14_refused.
Example C14_refused_case : ~ ok_name (str "warc-record-id").
Proof. intros [_ H]. apply H. reflexivity. Qed.

(* C15: a header built by any operations with values and names free of CR and
   NUL, with an identifier free of '/' and '>', is the same after being
   written and read. *)
Theorem C15_roundtrip : forall prefix id_size id ops,
  clean_prefix prefix -> clean_id id -> Forall (fun c => is_graph c = true) id -> len id = id_size ->
  Forall (fun o => ok_name (hop_name o)) ops ->
  Forall (fun o => match o with HSet n v => clean n /\ clean v | HDel _ => True end) ops ->
  exists hd hd', run_hops (Header_New id_size) ops = Ok hd /\ Header_Set_Id id_size hd id = Ok hd' /\
    Header_Get_Id hd' = id /\ h_fields hd' = h_fields hd /\
    Header_Parse prefix (Header_Serialize prefix hd') = Ok hd'.
Proof. exact hops_roundtrip. Qed.
Print Assumptions C15_roundtrip.
Example C15_case : clean_prefix (str "http://x/") /\ clean_id (str "00ff") /\
  Forall (fun o => match o with HSet n v => clean n /\ clean v | HDel _ => True end) ex_hops /\
  match run_hops (Header_New 4) ex_hops with
  | Ok hd => match Header_Set_Id 4 hd (str "00ff") with
             | Ok hd' => Header_Parse (str "http://x/") (Header_Serialize (str "http://x/") hd') = Ok hd'
             | _ => False end
  | _ => False end.
Proof.
  split; [|split; [|split]].
  - split; [split; vm_compute; intuition discriminate|]. split; [vm_compute; intuition discriminate|].
    exists (str "http:/" ++ str "/x"). reflexivity.
  - repeat split; vm_compute; intuition discriminate.
  - repeat constructor; vm_compute; intuition discriminate.
  - vm_compute. reflexivity.
Qed.

(* C15, reading: for a text with the identifier line first and then field
   lines in any order, with repetitions, the fields are those obtained by
   setting them one after the other (so the last of several counts), for both
   format versions. *)
Theorem C15_parse : forall v prefix id fs, v = "WARC/1.0" \/ v = "WARC/1.1" ->
  clean_prefix prefix -> clean_id id ->
  Forall (fun f => ok_name (hf_name f) /\ ~ In 13 (hf_name f) /\ ~ In 13 (hf_val f)) fs ->
  Header_Parse prefix (str v ++ crlf ++ str "WARC-Record-ID: <" ++ prefix ++ id ++ [62] ++ crlf ++
                       concat (map (fun f => hf_name f ++ str ": " ++ hf_val f ++ crlf) fs) ++ crlf) =
  run_hops (mkH id []) (map (fun f => HSet (hf_name f) (hf_val f)) fs).
Proof. exact parse_text. Qed.
Print Assumptions C15_parse.
Example C15_parse_case :
  match Header_Parse (str "http://x/")
    (str "WARC/1.0" ++ crlf ++ str "WARC-Record-ID: <http://x/00ff>" ++ crlf ++
     str "b: 1" ++ crlf ++ str "A: 2" ++ crlf ++ str "B: 3" ++ crlf ++ crlf) with
  | Ok hd => hd = mkH (str "00ff") [mkF (str "A") (str "2"); mkF (str "b") (str "3")]
  | _ => False end.
Proof. vm_compute. reflexivity. Qed.

(* C16: a number below 2^63 written in decimal reads back. *)
Theorem C16_roundtrip : forall hd name n, StronglySorted name_lt (h_fields hd) -> ok_name name -> n < 2 ^ 63 ->
  exists hd', Header_Set hd name (dec n) = Ok hd' /\ Header_Get_Number hd' name = Ok (Z.of_N n).
Proof. exact number_roundtrip. Qed.
Print Assumptions C16_roundtrip.
Example C16_case : dec 9223372036854775807 = str "9223372036854775807" /\ 9223372036854775807 < 2 ^ 63.
Proof. split; vm_compute; reflexivity. Qed.

(* C16: strings of digits. *)
Theorem C16_digits : forall hd name s, Header_Get hd name = Some s ->
  Forall (fun c => is_digit c = true) s ->
  Header_Get_Number hd name = if dec_value s <? 2 ^ 63 then Ok (Z.of_N (dec_value s)) else UB.
Proof. exact number_exact. Qed.
Print Assumptions C16_digits.
Example C16_digits_case :
  Header_Get_Number (mkH [] [mkF (str "Content-Length") (str "007")]) (str "content-length") = Ok 7%Z.
Proof. vm_compute. reflexivity. Qed.

(* C16 (partial): other strings up to 19 characters, and absent fields, are
   refused.  Full claim: all non-numeric values are refused and all numeric
   ones accepted.  Missing: the empty value, and values of 20 or more
   characters beginning with more digits than fit; there it is false (next
   theorem). *)
Theorem C16_refused_partial : forall hd name s, Header_Get hd name = Some s ->
  ~ Forall (fun c => is_digit c = true) s -> len s <= 19 ->
  Header_Get_Number hd name = Ok (-1)%Z.
Proof. exact number_refused. Qed.
Print Assumptions C16_refused_partial.
Example C16_refused_case : ~ Forall (fun c => is_digit c = true) (str "12x") /\
  Header_Get (mkH [] [mkF (str "A") (str "12x")]) (str "a") = Some (str "12x").
Proof.
  split; [|reflexivity]. intros H. rewrite Forall_forall in H.
  specialize (H 120). discriminate H. vm_compute. auto.
Qed.

Theorem C16_refuted :
  (exists hd name, Header_Get hd name = Some [] /\ Header_Get_Number hd name = Ok 0%Z) /\
  (exists hd name s, Header_Get hd name = Some s /\ Forall (fun c => is_digit c = true) s /\
     Header_Get_Number hd name = UB).
Proof.
  split.
  - exists (mkH [] [mkF (str "A") []]), (str "A"). split; reflexivity.
  - exists (mkH [] [mkF (str "A") (str "9223372036854775808")]), (str "A"). eexists.
    split; [reflexivity|]. split; [repeat constructor|]. vm_compute. reflexivity.
Qed.
Print Assumptions C16_refuted.

(* C17: for every digest function giving 64 hex digits. *)
Definition digest_fn (sha : bytes -> bytes) : Prop :=
  (forall x, length (sha x) = 64%nat) /\ (forall x, Forall (fun c => is_hex c = true) (sha x)).

Theorem C17_payload : forall sha id_size hd body typ,
  Header_Get hd (str "WARC-Type") = Some typ ->
  typ = str "resource" \/ typ = str "continuation" \/ typ = str "warcinfo" ->
  Ident_Create sha id_size hd (sha body) = Ok (firstn (N.to_nat id_size) (sha body)).
Proof. exact ident_payload. Qed.
Print Assumptions C17_payload.

Theorem C17_metadata : forall sha id_size hd body ref,
  Header_Get hd (str "WARC-Type") = Some (str "metadata") ->
  Header_Get hd (str "WARC-Refers-To") = Some ref ->
  Ident_Create sha id_size hd (sha body) =
  Ok (firstn (N.to_nat id_size) (sha (ref ++ [10] ++ sha body ++ [10]))).
Proof. exact ident_meta. Qed.
Print Assumptions C17_metadata.

(* the digested text determines reference and digest *)
Theorem C17_metadata_text : forall r1 d1 r2 d2 : bytes, length d1 = length d2 ->
  r1 ++ [10] ++ d1 ++ [10] = r2 ++ [10] ++ d2 ++ [10] -> r1 = r2 /\ d1 = d2.
Proof. exact ident_text_inj. Qed.
Print Assumptions C17_metadata_text.

Theorem C17_size : forall sha, (forall x, length (sha x) = 64%nat) ->
  (forall x, Forall (fun c => is_hex c = true) (sha x)) ->
  forall id_size hd body id, id_size <= 64 ->
  Ident_Create sha id_size hd (sha body) = Ok id ->
  Forall (fun c => is_hex c = true) id /\ len id = id_size.
Proof. exact ident_valid. Qed.
Print Assumptions C17_size.
Definition ex_sha (x : bytes) : bytes := hexpad 64 (be_dec x).
Example C17_case : digest_fn ex_sha /\
  Ident_Create ex_sha 16 (mkH [] [mkF (str "WARC-Refers-To") (str "<u>"); mkF (str "WARC-Type") (str "metadata")])
    (ex_sha [1; 2]) = Ok (str "3030303030303030") /\
  Ident_Create ex_sha 16 (mkH [] [mkF (str "WARC-Type") (str "resource")]) (ex_sha (repeat 171 32)) = Ok (str "abababababababab").
Proof.
  split; [split; intros; [apply hexpad_length|apply hexpad_hex]|]. split; vm_compute; reflexivity.
Qed.

(* C41: setting a new field makes the written header longer by exactly what
   Header_Len says. *)
Theorem C41_header_len : forall prefix hd name val,
  StronglySorted name_lt (h_fields hd) -> ok_name name -> Header_Get hd name = None ->
  exists hd', Header_Set hd name val = Ok hd' /\
    len (Header_Serialize prefix hd') = len (Header_Serialize prefix hd) + Header_Len name val.
Proof. exact set_grows. Qed.
Print Assumptions C41_header_len.
Example C41_case : Header_Len (str "WARC-Segment-Number") (str "1") = 24 /\
  Header_Get (mkH [] [mkF (str "WARC-Type") (str "resource")]) (str "WARC-Segment-Number") = None.
Proof. split; reflexivity. Qed.
