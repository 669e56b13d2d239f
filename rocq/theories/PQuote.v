(* Property theorems C65: quoted texts in string buffers.  Statements only. *)
From Coq Require Import String.
From Verif Require Import Base InflateSpec VsbModel VsbSpec QuoteModel QuoteSpec QuoteMain QuoteEnd.
Open Scope string_scope.
Open Scope list_scope.
Open Scope N_scope.

(* C65 in full: whatever bytes are quoted, the text put into the buffer can be read back, as
   C reads string literals, or as hexadecimal digits, as these bytes and no others, for each
   of the ways of quoting; asked to, it ends with a line feed.  Refuted in four ways below.
   With VSB_QUOTE_UNSAFE, and with VSB_QUOTE_NONL without VSB_QUOTE_CSTR, texts are for
   people and not to be read back. *)

(* Without flags (or with VSB_QUOTE_JSON, see below): printable, and reads as the bytes. *)
Theorem C65_plain_partial : forall mem n v how, handed mem n v -> Forall narrow v ->
  f_hex how = false -> f_cstr how = false -> f_nonl how = false -> f_unsafe how = false -> f_eschex how = false ->
  exists ops t, VSB_quote mem n how = Ok ops /\ in_buffer ops t /\ c_text t v /\ Forall printable t.
Proof. exact quote_reads. Qed.
Print Assumptions C65_plain_partial.

(* VSB_QUOTE_CSTR, with white space as prefix, with or without VSB_QUOTE_NONL: literals, over
   several lines if there are line feeds, at least one, and no trigraphs. *)
Theorem C65_cstr_partial : forall pfx mem n v how, handed mem n v -> Forall narrow v -> blank pfx ->
  f_hex how = false -> f_cstr how = true -> f_unsafe how = false -> f_eschex how = false ->
  exists ops t, VSB_quote_pfx pfx mem n how = Ok ops /\ in_buffer ops t /\ c_literals t v /\ In 34 t /\ no_trigraph t.
Proof. exact quote_literals. Qed.
Print Assumptions C65_cstr_partial.
Example C65_case : handed (str "what?" ++ [10; 1; 255]) (Some 8) (str "what?" ++ [10; 1; 255]) /\ Forall narrow (str "what?" ++ [10; 1; 255]) /\ blank [9] /\
  exists ops, VSB_quote_pfx [9] (str "what?" ++ [10; 1; 255]) (Some 8) 8 = Ok ops /\
  in_buffer ops ([9; 34] ++ str "what\?\n" ++ [34; 10; 9; 34] ++ str "\001\377" ++ [34]).
Proof. exact quote_case. Qed.

(* They read in one way only. *)
Theorem C65_text_unique : forall t v v', c_text t v -> c_text t v' -> v = v'.
Proof. exact text_unique. Qed.
Print Assumptions C65_text_unique.
Theorem C65_literals_unique : forall t v, c_literals t v -> forall v', c_literals t v' -> v = v'.
Proof. exact literals_unique. Qed.
Print Assumptions C65_literals_unique.

(* VSB_QUOTE_HEX, for all bytes *)
Theorem C65_hex_partial : forall pfx mem n v how, handed mem n v -> is_bytes v -> f_hex how = true -> v <> [] -> (exists c, In c v /\ c <> 0) \/ len v <= 4 ->
  exists ops h, VSB_quote_pfx pfx mem n how = Ok ops /\ in_buffer ops (pfx ++ str "0x" ++ h) /\ hex_pairs h v.
Proof. exact quote_hex. Qed.
Print Assumptions C65_hex_partial.
Example C65_hex_case : handed [0; 171; 9] (Some 2) [0; 171] /\ (exists c, In c [0; 171] /\ c <> 0) /\ hex_pairs (str "00ab") [0; 171].
Proof.
  split; [left; split; [reflexivity|exists [9]; reflexivity]|]. split; [exists 171; split; [right; left; reflexivity|discriminate]|].
  exact (hp_more 48 48 0 0 _ _ eq_refl eq_refl (hp_more 97 98 10 11 _ _ eq_refl eq_refl hp_end)).
Qed.

(* VSB_QUOTE_NONL or VSB_QUOTE_UNSAFE: a line feed at the end *)
Theorem C65_line : forall pfx mem n v how, handed mem n v -> Forall narrow v -> v <> [] -> f_hex how = false -> f_nonl how = true \/ f_unsafe how = true ->
  exists ops t, VSB_quote_pfx pfx mem n how = Ok ops /\ in_buffer ops (t ++ [10]).
Proof. exact quote_line. Qed.
Print Assumptions C65_line.

(* Any byte from 128 to 254, but for VSB_QUOTE_HEX: a negative char is given to isgraph(3),
   which is undefined (vsb.c:545, 601). *)
Theorem C65_char_refuted : forall pfx mem n v how, handed mem n v -> is_bytes v -> f_hex how = false -> (exists c, In c v /\ ~ narrow c) ->
  VSB_quote_pfx pfx mem n how = UB.
Proof. exact char_refuted. Qed.
Print Assumptions C65_char_refuted.
Example C65_char_case : handed [195; 184] (Some 2) [195; 184] /\ ~ narrow 195.
Proof. split; [left; split; [reflexivity|exists []; reflexivity]|]. intros [H|H]; discriminate H. Qed.

(* VSB_QUOTE_HEX of five and of six zeros is the same text (vsb.c:534). *)
Theorem C65_zeros_refuted : exists v v' ops, v <> v' /\ VSB_quote v (Some (len v)) 4 = Ok ops /\ VSB_quote v' (Some (len v')) 4 = Ok ops.
Proof. exact zeros_refuted. Qed.
Print Assumptions C65_zeros_refuted.

(* VSB_QUOTE_CSTR with VSB_QUOTE_ESCHEX: digits behind a hexadecimal escape are read as part
   of it (vsb.c:604). *)
Theorem C65_eschex_refuted : exists v ops t, Forall narrow v /\ VSB_quote v (Some (len v)) 40 = Ok ops /\ in_buffer ops t /\ ~ c_literals t v.
Proof. exact eschex_refuted. Qed.
Print Assumptions C65_eschex_refuted.

(* VSB_QUOTE_JSON gives no JSON string: there are no quotes. *)
Theorem C65_json_refuted : exists ops, VSB_quote (str "a") (Some 1) 2 = Ok ops /\ in_buffer ops (str "a").
Proof. exact json_refuted. Qed.
Print Assumptions C65_json_refuted.
