(* Property theorems C61: the command lines of byid, dumpindex, housekeeping and info, and the
   bytes of _testbytes.  Statements only. *)
From Coq Require Import String Sorting.Sorted.
From Verif Require Import Base IndexModel IndexSpec IndexSysModel IndexSysSpec HeaderModel ProgModel StoreModel StoreSpec StoreSysModel StoreToy StoreRuns
  IdsModel IdsSpec CmdModel CmdSpec GetcModel GetcSpec MkModel MkSpec OthModel OthSpec OthMain.
Open Scope string_scope.
Open Scope list_scope.
Open Scope N_scope.

(* C61 in full: options and operands in any order and notation getopt takes have the meaning
   the usage texts give them; anything else is refused, and nothing happens.  Refuted for
   operands of housekeeping and _testbytes, see below; otherwise partial where C52 and C53 are. *)

(* byid lists the records of each operand; with -e its exit status is 0, otherwise the
   number of records, at most 255. *)
Theorem C61_byid_partial : forall C L, conf_ok C -> zlib_ok L -> forall x os ops args fs,
  reach C L x -> (forall j p, In (j, p) (wo_procs x) -> exists a, p = Ret a) ->
  written [] [o_h; o_e] os ops args -> ~ In (o_h, None) os ->
  Forall2 (frag (c_prefix C)) ops fs -> len ops * len (f_idx (wo_fs x)) <= 2 ^ 31 - 1 ->
  exists pss ls, Forall2 (its_records C L (wo_fs x)) fs pss /\ Forall2 id_line (map p_rec (List.concat pss)) ls /\
    run (byid_cmd C args) (wo_fs x) = (wo_fs x, inl (List.concat ls, if mentions o_e os then 0 else N.min 255 (len (List.concat pss)))).
Proof. exact byid_line. Qed.
Print Assumptions C61_byid_partial.
Example C61_byid_case : written [] [o_h; o_e] [(o_e, None)] [hello_id] [str "-e"; hello_id] /\ ~ In (o_h, @None bytes) [(o_e, None)] /\
  mentions o_e [(o_e, @None bytes)] = true.
Proof. exact byid_line_case. Qed.

Theorem C61_byid_refused : forall C args s,
  (forall os ops, written [] [o_h; o_e] os ops args -> In (o_h, None) os) -> run (byid_cmd C args) s = (s, inr DExit).
Proof. exact byid_refused. Qed.
Print Assumptions C61_byid_refused.
Example C61_byid_refused_case : forall os ops, written [] [o_h; o_e] os ops [str "-eh"; hello_id] -> In (o_h, None) os.
Proof. exact byid_refused_case. Qed.

(* dumpindex: the last -t counts, *)
Theorem C61_dump_partial : forall id_size sort_size evs os ops args,
  ok_conf id_size sort_size -> Forall ok_ev evs -> len (ideal_evs evs) < 2 ^ 38 ->
  written [o_t] [o_h] os ops args -> ~ In (o_h, None) os -> (forall v, In v (given o_t os) -> known_word (Some v)) -> Forall hexstr ops ->
  exists y, sys_run id_size sort_size (mkSys ifs_empty []) evs = Ok y /\
    ((forall k, In k ops -> start_clear (y_fs y) k /\ bucket_used (y_fs y) k) ->
     exists ess ls, dump_cmd (y_fs y) args = Ok (Some (List.concat ls)) /\ Forall2 shows (List.concat ess) ls /\
       Forall2 (fun q es => forall e, In e es <-> In e (ideal_evs evs) /\ IndexSpec.asked q e /\ word_flag (last_of o_t os) e) (IdsSpec.asks ops) ess).
Proof. exact dump_line_hist. Qed.
Print Assumptions C61_dump_partial.
Example C61_dump_case : written [o_t] [o_h] [(o_t, Some (str "metadata")); (o_t, Some (str "resource"))] [str "f"] [str "-tmetadata"; str "-t"; str "resource"; str "f"] /\
  ~ In (o_h, None) [(o_t, Some (str "metadata")); (o_t, Some (str "resource"))] /\
  last_of o_t [(o_t, Some (str "metadata")); (o_t, Some (str "resource"))] = Some (str "resource") /\
  (forall v, In v (given o_t [(o_t, Some (str "metadata")); (o_t, Some (str "resource"))]) -> known_word (Some v)) /\ Forall hexstr [str "f"].
Proof. exact dump_line_case. Qed.

(* but all must be right. *)
Theorem C61_dump_refused : forall st args,
  (forall os ops, written [o_t] [o_h] os ops args -> In (o_h, None) os \/ exists v, In v (given o_t os) /\ ~ known_word (Some v)) ->
  dump_cmd st args = Ok None.
Proof. exact dump_refused. Qed.
Print Assumptions C61_dump_refused.
Example C61_dump_refused_case : forall os ops, written [o_t] [o_h] os ops [str "-t"; str "meta"; str "-t"; str "metadata"] ->
  In (o_h, None) os \/ exists v, In v (given o_t os) /\ ~ known_word (Some v).
Proof. exact dump_refused_case. Qed.

(* housekeeping *)
Theorem C61_housekeeping : forall id_size sort_size ops args,
  ok_conf id_size sort_size -> Forall ok_op ops -> len (ideal_ops ops) < 2 ^ 38 -> written [] [o_h] [] [] args ->
  exists st st' l', run_ops id_size sort_size ifs_empty ops = Ok st /\ housekeeping_cmd sort_size st args = Ok (Some st') /\
    IndexModel.lookup st' None = Ok l' /\ (forall e, In e l' <-> In e (ideal_ops ops)) /\ StronglySorted key_le l' /\
    IndexModel.f_app st' = None /\ IndexModel.f_hk st' = None /\ IndexModel.f_hold st' = false.
Proof. exact hk_line. Qed.
Print Assumptions C61_housekeeping.
Theorem C61_housekeeping_refused : forall sort_size st args,
  (forall ops, ~ written [] [o_h] [] ops args) -> housekeeping_cmd sort_size st args = Ok None.
Proof. exact hk_refused. Qed.
Print Assumptions C61_housekeeping_refused.
Example C61_housekeeping_case : written [] [o_h] [] [] [str "--"] /\ (forall ops, ~ written [] [o_h] [] ops [str "-x"]).
Proof. exact hk_line_case. Qed.
(* With an operand, which its usage text shows as allowed, it aborts. *)
Theorem C61_housekeeping_refuted : forall sort_size, exists args, written [] [o_h] [] [str "3"] args /\
  forall st, housekeeping_cmd sort_size st args = Abort.
Proof. exact hk_operand. Qed.
Print Assumptions C61_housekeeping_refuted.

(* info tells the length of identifiers. *)
Theorem C61_info : forall json id_size args, written [] [o_h] [] [] args -> info_cmd json id_size args =
  Some (if json
        then str "[ ""AardWARC"", ""info"", ""1"", {" ++ [10] ++ str "    ""id_size"": " ++ dec id_size ++ [10] ++ str "} ]" ++ [10]
        else str "id_size: " ++ dec id_size ++ [10]).
Proof. exact info_line. Qed.
Print Assumptions C61_info.
Theorem C61_info_refused : forall json id_size args, ~ written [] [o_h] [] [] args -> info_cmd json id_size args = None.
Proof. exact info_refused. Qed.
Print Assumptions C61_info_refused.
Example C61_info_case : info_cmd false 32 [] = Some (str "id_size: 32" ++ [10]) /\ ~ written [] [o_h] [] [] [str "3"].
Proof. split; [reflexivity|exact info_refused_case]. Qed.

(* _testbytes -n N: the first N bytes of one endless sequence, so that less is always the
   beginning of more; whatever the hash, as long as its digests are 32 bytes. *)
Theorem C61_testbytes : forall sha, (forall d, List.length (sha d) = 32%nat) -> forall os args t n,
  written [o_n] [o_h] os [] args -> ~ In (o_h, None) os -> last_of o_n os = Some t -> reads_as t n -> n < 2 ^ 64 ->
  exists fuel0, forall fuel, (fuel0 <= fuel)%nat -> exists out, testbytes_cmd sha fuel args = Ok (Some out) /\ len out = n /\
    forall i, i < n -> nth (N.to_nat i) out 0 = test_byte sha i.
Proof. exact test_line. Qed.
Print Assumptions C61_testbytes.
Example C61_testbytes_case : written [o_n] [o_h] [(o_n, Some (str "0x1F"))] [] [str "-n0x1F"] /\ ~ In (o_h, None) [(o_n, Some (str "0x1F"))] /\
  last_of o_n [(o_n, Some (str "0x1F"))] = Some (str "0x1F") /\ reads_as (str "0x1F") 31 /\ (forall d, List.length (flip d) = 32%nat).
Proof. exact test_line_case. Qed.
Example C61_testbytes_run : testbytes_cmd flip 9 [str "-n"; str "034"] = Ok (Some (firstn 28 (repeat 1 32))) /\
  testbytes_cmd flip 9 [str "-n"; str "34"] = Ok (Some (repeat 1 32 ++ [2; 2])).
Proof. exact test_run_case. Qed.
Theorem C61_testbytes_none : forall sha os args fuel,
  written [o_n] [o_h] os [] args -> ~ In (o_h, None) os -> last_of o_n os = None -> testbytes_cmd sha fuel args = Ok (Some []).
Proof. exact test_empty. Qed.
Print Assumptions C61_testbytes_none.
Theorem C61_testbytes_refused : forall sha fuel args,
  (forall os ops, written [o_n] [o_h] os ops args -> In (o_h, None) os) -> testbytes_cmd sha fuel args = Ok None.
Proof. exact test_refused. Qed.
Print Assumptions C61_testbytes_refused.
Example C61_testbytes_refused_case : forall os ops, written [o_n] [o_h] os ops [str "-n"] -> In (o_h, None) os.
Proof. exact test_refused_case. Qed.
(* The number without -n aborts. *)
Theorem C61_testbytes_refuted : exists args, written [o_n] [o_h] [] [str "34"] args /\ forall sha fuel, testbytes_cmd sha fuel args = Abort.
Proof. exact test_operand. Qed.
Print Assumptions C61_testbytes_refuted.
