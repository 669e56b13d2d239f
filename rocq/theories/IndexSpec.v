(* Specification of the index, independent of the file format. *)
From Verif Require Import Base IndexModel.
Open Scope N_scope.

(* A hex string brought to exactly n lower case digits: cut, or filled up with
   zeros on the right. *)
Definition pad (n : nat) (s : bytes) : bytes := firstn n (lower s ++ repeat 48 n).

(* What a user expects to get back for an inserted record. *)
Definition ideal (key : bytes) (flags silo offset : N) (cont : option bytes) : ixent :=
  mkEnt (pad 24 key) flags silo offset
        (pad 8 (match cont with Some c => c | None => [] end)).

(* Key asked for: its first 24 digits, letter case ignored, are a prefix of
   the record's key. *)
Definition asked (key_part : option bytes) (e : ixent) : Prop :=
  match key_part with
  | None => True
  | Some k => exists rest, e_key e = firstn 24 (lower k) ++ rest
  end.

Definition hexstr (s : bytes) : Prop := Forall (fun c => is_hex c = true) s.

(* Operations on an index and what they mean. *)
Inductive iop :=
| OInsert (key : bytes) (flags silo offset : N) (cont : option bytes)
| OResort.

Definition ok_op (o : iop) : Prop :=
  match o with
  | OInsert key flags silo offset cont =>
      hexstr key /\ flags < 2 ^ 32 /\ silo < 2 ^ 32 /\ offset < 2 ^ 63 /\
      match cont with Some c => hexstr c | None => True end
  | OResort => True
  end.

Fixpoint ideal_ops (ops : list iop) : list ixent :=
  match ops with
  | [] => []
  | OInsert key flags silo offset cont :: r =>
      ideal key flags silo offset cont :: ideal_ops r
  | OResort :: r => ideal_ops r
  end.

Definition run_op (id_size sort_size : N) (st : ifs) (o : iop) : res ifs :=
  match o with
  | OInsert key flags silo offset cont =>
      IDX_Insert id_size st key flags silo offset cont
  | OResort => IDX_Resort sort_size st
  end.

Fixpoint run_ops (id_size sort_size : N) (st : ifs) (ops : list iop) : res ifs :=
  match ops with
  | [] => Ok st
  | o :: r => let* st' := run_op id_size sort_size st o in
              run_ops id_size sort_size st' r
  end.

(* Configurations AardWARC_New accepts: id.size in hex digits (aardwarc.c:147-160),
   index.sort_size (aardwarc.c:180-190). *)
Definition ok_conf (id_size sort_size : N) : Prop :=
  16 <= id_size <= 64 /\ 4096 <= sort_size /\ sort_size mod 32 = 0.

(* Grammar of acceptable identifiers. *)
Definition good_id (prefix : bytes) (id_size : N) (id nid : bytes) : Prop :=
  hexstr nid /\ len nid = id_size /\
  (id = nid \/ exists p, lower p = lower prefix /\ id = p ++ nid).

(* Order of the housekept file, as seen through the identifiers. *)
Definition key_le (a b : ixent) : Prop := lex (e_key a) (e_key b) <> Gt.

(* The search in the housekept file starts behind the bucket table: the byte
   position bucket_seek computes for the key is not below the size of the
   table.  Trivially true before the first housekeeping. *)
Definition start_clear (st : ifs) (key : bytes) : Prop :=
  match f_sorted st with
  | None => True
  | Some f => exists kp hdr pos, idx_key_bin KEYSUMM key = Ok kp /\
      bucket_skip f = Ok hdr /\ bucket_seek kp f = Ok pos /\ hdr <= pos
  end.

(* Number of key bits which select the bucket. *)
Definition table_bits (f : bytes) : res N :=
  let* id := read8 f 0 in Ok (id / 2 ^ 40 mod 256).

(* The key has at least seven digits, or some record of the housekept file is
   in the bucket selected by the key (filled up with zeros). *)
Definition bucket_used (st : ifs) (key : bytes) : Prop :=
  match f_sorted st with
  | None => True
  | Some f => 7 <= len key \/
      exists bits r, table_bits f = Ok bits /\
        (exists hdr, bucket_skip f = Ok hdr /\ In r (whole_records (skipn (N.to_nat hdr) f))) /\
        (exists kp, idx_key_bin KEYSUMM key = Ok kp /\
           be_dec (firstn 8 r) / 2 ^ (64 - bits) = be_dec (firstn 8 kp) / 2 ^ (64 - bits))
  end.

(* A process which is between taking and releasing the housekeeping lock. *)
Definition working (pc : hk_pc) : Prop :=
  match pc with HHold | HDone | HAbort => False | _ => True end.

(* The selected bucket is the first one, or so many records of the housekept
   file are in lower buckets that they outnumber the size of the bucket table
   (2^(bits-2) records of 32 bytes) by an average bucket (nrec / 2^bits).
   Implies start_clear. *)
Definition table_nrec (f : bytes) : res N :=
  let* id := read8 f 0 in Ok (id mod 2 ^ 40).

Definition deep (st : ifs) (key : bytes) : Prop :=
  match f_sorted st with
  | None => True
  | Some f => exists bits n kp hdr, table_bits f = Ok bits /\ table_nrec f = Ok n /\
      idx_key_bin KEYSUMM key = Ok kp /\ bucket_skip f = Ok hdr /\ n < 2 ^ 32 /\
      (be_dec (firstn 8 kp) / 2 ^ (64 - bits) = 0 \/
       2 ^ (bits - 2) + n / 2 ^ bits + 2 <=
       len (filter (fun r => be_dec (firstn 8 r) / 2 ^ (64 - bits) <? be_dec (firstn 8 kp) / 2 ^ (64 - bits))
             (whole_records (skipn (N.to_nat hdr) f))))
  end.
