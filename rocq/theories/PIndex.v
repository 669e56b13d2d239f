(* Property theorems C01-C13: identifiers and the index.  Statements only. *)
From Coq Require Import String Sorting.Sorted.
From Verif Require Import Base IndexModel IndexSpec IndexSysModel IndexSysSpec
  IndexRaceModel IndexRaceSpec IndexMain.
Open Scope string_scope.
Open Scope list_scope.
Open Scope N_scope.

(* C01: an identifier is accepted, with short form nid, iff it is nid or the
   archive prefix (in any letter case) followed by nid, and nid is exactly
   id_size hex digits. *)
Theorem C01_valid_id : forall prefix id_size id nid,
  IDX_Valid_Id (prefix ++ [47]) id_size id = IdOk nid <->
  good_id (prefix ++ [47]) id_size id nid.
Proof. exact valid_id_slash. Qed.
Print Assumptions C01_valid_id.
Example C01_case : IDX_Valid_Id (str "http://x/") 4 (str "HTTP://X/00fE") = IdOk (str "00fE") /\
  IDX_Valid_Id (str "http://x/") 4 (str "http://y/00fE") = IdWrongPrefix.
Proof. split; reflexivity. Qed.

(* C02: after any inserts into an index which was not housekept, one more
   insert adds exactly the expected entry to what iterating reports. *)
Theorem C02_readback : forall id_size sort_size ops key flags silo offset cont,
  ok_conf id_size sort_size -> Forall ok_op ops -> Forall (fun o => o <> OResort) ops ->
  hexstr key -> 24 <= len key -> flags < 2 ^ 32 -> silo < 2 ^ 32 -> offset < 2 ^ 63 ->
  match cont with Some c => hexstr c /\ 8 <= len c | None => True end ->
  exists st st' l, run_ops id_size sort_size ifs_empty ops = Ok st /\
    IDX_Insert id_size st key flags silo offset cont = Ok st' /\
    lookup st None = Ok l /\
    lookup st' None =
      Ok (l ++ [mkEnt (lower (firstn 24 key)) flags silo offset
                 match cont with Some c => lower (firstn 8 c) | None => repeat 48 8 end]).
Proof. exact readback. Qed.
Print Assumptions C02_readback.
Example C02_case :
  match IDX_Insert 32 ifs_empty (str "ABCDEF0123456789abcdef0123456789") 5 2 1000 (Some (str "89ABcdef01")) with
  | Ok st => lookup st None =
      Ok [mkEnt (str "abcdef0123456789abcdef01") 5 2 1000 (str "89abcdef")]
  | _ => False
  end.
Proof. vm_compute. reflexivity. Qed.

(* C02, with housekeeping and other processes: whatever the history (inserts
   and housekeeping system calls of any number of processes in any order,
   crashes), iterating reports exactly the expected entries of the inserts. *)
Theorem C02_history : forall id_size sort_size evs,
  ok_conf id_size sort_size -> Forall ok_ev evs -> len (ideal_evs evs) < 2 ^ 38 ->
  exists y l, sys_run id_size sort_size (mkSys ifs_empty []) evs = Ok y /\
    lookup (y_fs y) None = Ok l /\ (forall e, In e l <-> In e (ideal_evs evs)) /\
    (forall pc, In pc (y_pc y) -> pc <> HAbort).
Proof. exact evs_visible. Qed.
Print Assumptions C02_history.
Example C02_history_case : Forall ok_ev (w_before ++ w_during).
Proof. repeat constructor. Qed.

(* C03: records whose keys differ in the first 24 digits are ordered as the
   keys. *)
Theorem C03_order : forall k1 f1 s1 o1 c1 k2 f2 s2 o2 c2,
  ok_op (OInsert k1 f1 s1 o1 c1) -> ok_op (OInsert k2 f2 s2 o2 c2) ->
  pad 24 k1 <> pad 24 k2 ->
  exists r1 r2, idx_record k1 f1 s1 o1 c1 = Ok r1 /\ idx_record k2 f2 s2 o2 c2 = Ok r2 /\
    lex r1 r2 = lex (pad 24 k1) (pad 24 k2).
Proof. exact record_order. Qed.
Print Assumptions C03_order.
Example C03_case : pad 24 (str "09FF") <> pad 24 (str "0a") /\
  lex (pad 24 (str "09FF")) (pad 24 (str "0a")) = Lt.
Proof. split; [discriminate|reflexivity]. Qed.

(* C04, C05, C06 (partial): full claim: after any history a lookup of any hex
   key succeeds and reports exactly the inserted records matching the key.
   Proved: for every key whose search in the housekept file does not start
   inside the bucket table (deep), which includes every key before the first
   housekeeping; seven digits or more.  Missing: keys in the low buckets of a
   housekept file, for which the claim is false (the refutations below). *)
Theorem C04_C05_C06_lookup_partial : forall id_size sort_size evs k,
  ok_conf id_size sort_size -> Forall ok_ev evs -> len (ideal_evs evs) < 2 ^ 38 ->
  hexstr k -> 7 <= len k ->
  exists y, sys_run id_size sort_size (mkSys ifs_empty []) evs = Ok y /\
    (deep (y_fs y) k ->
     exists l, lookup (y_fs y) (Some k) = Ok l /\
       (forall e, In e l <-> In e (ideal_evs evs) /\ asked (Some k) e)).
Proof. exact lookup_deep_evs. Qed.
Print Assumptions C04_C05_C06_lookup_partial.

Definition ex_ops : list hev :=
  map (fun k => EInsert (str k) 1 2 3 None)
    ["000000000000000000000000000000a1"; "000000000000000000000000000000a2";
     "010000000000000000000000000000a1"; "020000000000000000000000000000a2";
     "030000000000000000000000000000a1"; "f40000000000000000000000000000a2"] ++
  [EStart] ++ repeat (EStep 0) 9.
Example C04_C05_C06_case : exists y,
  sys_run 32 4096 (mkSys ifs_empty []) ex_ops = Ok y /\ f_app (y_fs y) = None /\
  deep (y_fs y) (str "f40000000000000000000000000000a2") /\
  lookup (y_fs y) (Some (str "f40000000000000000000000000000a2")) =
    Ok [ideal (str "f40000000000000000000000000000a2") 1 2 3 None].
Proof.
  eexists. split; [vm_compute; reflexivity|]. split; [reflexivity|]. split.
  - do 4 eexists. split; [vm_compute; reflexivity|]. split; [vm_compute; reflexivity|].
    split; [vm_compute; reflexivity|]. split; [vm_compute; reflexivity|]. split; [reflexivity|].
    right. vm_compute. discriminate.
  - vm_compute. reflexivity.
Qed.

(* C07 (partial): any prefix length; the prefix must have seven digits or a
   record must exist in the bucket the prefix selects; and the computed start
   must be behind the bucket table. *)
Theorem C07_prefix_partial : forall id_size sort_size evs k,
  ok_conf id_size sort_size -> Forall ok_ev evs -> len (ideal_evs evs) < 2 ^ 38 -> hexstr k ->
  exists y, sys_run id_size sort_size (mkSys ifs_empty []) evs = Ok y /\
    (start_clear (y_fs y) k -> bucket_used (y_fs y) k ->
     exists l, lookup (y_fs y) (Some k) = Ok l /\
       (forall e, In e l <-> In e (ideal_evs evs) /\ asked (Some k) e)).
Proof. exact lookup_evs. Qed.
Print Assumptions C07_prefix_partial.
Example C07_case : exists y,
  sys_run 32 4096 (mkSys ifs_empty []) ex_ops = Ok y /\
  start_clear (y_fs y) (str "f") /\ bucket_used (y_fs y) (str "f") /\
  lookup (y_fs y) (Some (str "f")) = Ok [ideal (str "f40000000000000000000000000000a2") 1 2 3 None].
Proof.
  eexists. split; [vm_compute; reflexivity|]. split; [|split].
  - do 3 eexists. split; [vm_compute; reflexivity|]. split; [vm_compute; reflexivity|].
    split; [vm_compute; reflexivity|]. vm_compute. discriminate.
  - right. exists 2. eexists. split; [vm_compute; reflexivity|]. split.
    + eexists. split; [vm_compute; reflexivity|]. vm_compute. do 5 right. left. reflexivity.
    + eexists. split; [vm_compute; reflexivity|]. vm_compute. reflexivity.
  - vm_compute. reflexivity.
Qed.

(* C04-C07 before the first housekeeping: exact, in insertion order, for every
   key and prefix. *)
Theorem C04_C07_unsorted : forall id_size sort_size ops key,
  ok_conf id_size sort_size -> Forall ok_op ops -> Forall (fun o => o <> OResort) ops ->
  match key with Some k => hexstr k | None => True end ->
  exists st l, run_ops id_size sort_size ifs_empty ops = Ok st /\ lookup st key = Ok l /\
    exists keep, l = filter keep (ideal_ops ops) /\
      forall e, In e (ideal_ops ops) -> (keep e = true <-> asked key e).
Proof. exact lookup_unsorted. Qed.
Print Assumptions C04_C07_unsorted.
Example C04_C07_unsorted_case :
  match run_ops 32 4096 ifs_empty (removelast w_five) with
  | Ok st => match lookup st (Some (str "8")) with Ok [e] => e_off e = 2 | _ => False end
  | _ => False
  end.
Proof. vm_compute. reflexivity. Qed.

(* C04 is false in general: a phantom record is reported. *)
Theorem C04_refuted : exists id_size sort_size ops key st e,
  ok_conf id_size sort_size /\ Forall ok_op ops /\ hexstr key /\
  run_ops id_size sort_size ifs_empty ops = Ok st /\
  lookup st (Some key) = Ok [e] /\ ~ In e (ideal_ops ops).
Proof. exact phantom. Qed.
Print Assumptions C04_refuted.

(* C05 is false in general: a stored identifier is not found. *)
Theorem C05_refuted : exists id_size sort_size ops key st e,
  ok_conf id_size sort_size /\ Forall ok_op ops /\ hexstr key /\ len key = id_size /\
  run_ops id_size sort_size ifs_empty ops = Ok st /\
  In e (ideal_ops ops) /\ asked (Some key) e /\ lookup st (Some key) = Ok [].
Proof. exact missed. Qed.
Print Assumptions C05_refuted.

(* C06 is false in general: a lookup of an absent identifier aborts. *)
Theorem C06_refuted : exists id_size sort_size ops key st,
  ok_conf id_size sort_size /\ Forall ok_op ops /\ hexstr key /\ len key = id_size /\
  run_ops id_size sort_size ifs_empty ops = Ok st /\
  (forall e, In e (ideal_ops ops) -> ~ asked (Some key) e) /\ lookup st (Some key) = Abort.
Proof. exact lookup_aborts. Qed.
Print Assumptions C06_refuted.

(* C07 is false in general. *)
Theorem C07_refuted : exists id_size sort_size ops key st e,
  ok_conf id_size sort_size /\ Forall ok_op ops /\ hexstr key /\ len key = 2 /\
  run_ops id_size sort_size ifs_empty ops = Ok st /\
  In e (ideal_ops ops) /\ asked (Some key) e /\ lookup st (Some key) = Ok [].
Proof. exact missed_prefix. Qed.
Print Assumptions C07_refuted.

(* C08: after any history of inserts and housekeeping runs, housekeeping
   terminates, keeps the set of records, leaves them sorted by key and no
   appendix, for every sort size. *)
Theorem C08_housekeeping : forall id_size sort_size ops,
  ok_conf id_size sort_size -> Forall ok_op ops -> len (ideal_ops ops) < 2 ^ 38 ->
  exists st st' l', run_ops id_size sort_size ifs_empty ops = Ok st /\
    IDX_Resort sort_size st = Ok st' /\ lookup st' None = Ok l' /\
    (forall e, In e l' <-> In e (ideal_ops ops)) /\
    StronglySorted key_le l' /\
    f_app st' = None /\ f_hk st' = None /\ f_hold st' = false.
Proof. exact resort_hist. Qed.
Print Assumptions C08_housekeeping.
Example C08_case :
  match run_ops 32 4096 ifs_empty (w_one ++ w_five ++ w_two) with
  | Ok st => match lookup st None with
             | Ok l => map e_off l = [1234; 1; 1234; 2; 5678; 3; 4; 5]
             | _ => False end
  | _ => False
  end.
Proof. vm_compute. reflexivity. Qed.

(* C09: entries already present before a housekeeping run, inserted again and
   housekept again, leave the list of entries exactly as it was.  With
   dups = [] this is: repeating housekeeping changes nothing. *)
Theorem C09_incremental : forall id_size sort_size ops dups,
  ok_conf id_size sort_size -> Forall ok_op ops -> Forall ok_op dups ->
  len (ideal_ops (ops ++ dups)) < 2 ^ 38 ->
  incl (ideal_ops dups) (ideal_ops ops) ->
  exists st st' l, run_ops id_size sort_size ifs_empty (ops ++ [OResort]) = Ok st /\
    run_ops id_size sort_size st (dups ++ [OResort]) = Ok st' /\
    lookup st None = Ok l /\ lookup st' None = Ok l.
Proof. exact resort_dup. Qed.
Print Assumptions C09_incremental.
Example C09_case : incl (ideal_ops (removelast w_two)) (ideal_ops w_two).
Proof. intros e H. exact H. Qed.

(* C10: a crash at any point of any history loses nothing (C02_history, whose
   events include crashes), and after it housekeeping completes with the same
   set of records. *)
Theorem C10_crash : forall id_size sort_size evs,
  ok_conf id_size sort_size -> Forall ok_ev evs -> len (ideal_evs evs) < 2 ^ 38 ->
  exists y st l, sys_run id_size sort_size (mkSys ifs_empty []) (evs ++ [ECrash]) = Ok y /\
    IDX_Resort sort_size (y_fs y) = Ok st /\ lookup st None = Ok l /\
    (forall e, In e l <-> In e (ideal_evs evs)) /\
    f_app st = None /\ f_hold st = false /\ (f_app (y_fs y) <> None -> f_hk st = None).
Proof. exact evs_recover. Qed.
Print Assumptions C10_crash.
Example C10_case :   (* crash between link(2) and unlink(2) of the appendix *)
  match sys_run 32 4096 (mkSys ifs_empty []) (w_before ++ [EStart; EStep 0; EStep 0] ++ [ECrash]) with
  | Ok y => f_app (y_fs y) = f_hk (y_fs y) /\ f_app (y_fs y) <> None /\
            match lookup (y_fs y) None with Ok l => length l = 2%nat | _ => False end
  | _ => False
  end.
Proof. vm_compute. repeat split; discriminate. Qed.

(* C11: at most one process is inside housekeeping; a process which tries to
   enter while another is inside returns and changes no file. *)
Theorem C11_one_housekeeper : forall id_size sort_size evs,
  ok_conf id_size sort_size -> Forall ok_ev evs -> len (ideal_evs evs) < 2 ^ 38 ->
  exists y, sys_run id_size sort_size (mkSys ifs_empty []) evs = Ok y /\
    (forall j k p q, nth_error (y_pc y) j = Some p -> nth_error (y_pc y) k = Some q ->
       working p -> working q -> j = k) /\
    (forall j k p, nth_error (y_pc y) j = Some p -> working p -> nth_error (y_pc y) k = Some HHold ->
       sys_step id_size sort_size y (EStep k) = Ok (mkSys (y_fs y) (set_nth k HDone (y_pc y)))).
Proof. exact evs_mutex. Qed.
Print Assumptions C11_one_housekeeper.
Example C11_case :
  match sys_run 32 4096 (mkSys ifs_empty []) (w_before ++ [EStart; EStart; EStep 1; EStep 1; EStep 0]) with
  | Ok y => y_pc y = [HDone; HUnlinkApp]
  | _ => False
  end.
Proof. vm_compute. reflexivity. Qed.

(* C12 (partial): full claim: every record whose insert has returned is in the
   index.  Proved when every insert's write(2) happens before a housekeeper
   has taken the appendix it opened (timely); C02_history covers inserts whose
   open(2) and write(2) are not interrupted.  Missing: an insert interrupted
   between open(2) and write(2) by a whole housekeeping run; there the claim
   is false (next theorem). *)
Theorem C12_concurrent_insert_partial : forall id_size sort_size evs,
  ok_conf id_size sort_size -> Forall ok_rev evs -> rinserts evs < 2 ^ 38 ->
  timely id_size sort_size (mkR (mkSys ifs_empty []) [] []) evs ->
  exists z l, rsys_run id_size sort_size (mkR (mkSys ifs_empty []) [] []) evs = Ok z /\
    lookup (y_fs (z_sys z)) None = Ok l /\ (forall e, In e l <-> In e (z_done z)).
Proof. exact race_done. Qed.
Print Assumptions C12_concurrent_insert_partial.
Example C12_case :   (* the write falls between hold and link of a housekeeper *)
  timely 32 4096 (mkR (mkSys ifs_empty []) [] [])
    (firstn 4 w_race ++ [RWrite 0] ++ skipn 4 (removelast w_race)).
Proof.
  vm_compute. repeat (apply conj; [first [exact I | intros p E; injection E as <-; reflexivity]|]). exact I.
Qed.

Theorem C12_refuted : exists id_size sort_size evs z l e,
  ok_conf id_size sort_size /\ Forall ok_rev evs /\
  rsys_run id_size sort_size (mkR (mkSys ifs_empty []) [] []) evs = Ok z /\
  In e (z_done z) /\ lookup (y_fs (z_sys z)) None = Ok l /\ ~ In e l.
Proof. exact insert_lost. Qed.
Print Assumptions C12_refuted.

(* C13 (partial): full claim: a lookup which opens the three files while other
   processes work sees every record present when it started.  Proved if no
   housekeeper removes its housekeep file during the lookup.  Missing: that
   case; there the claim is false (next theorem). *)
Theorem C13_concurrent_lookup_partial : forall id_size sort_size evs0 evs1 evs2,
  ok_conf id_size sort_size -> Forall ok_ev (evs0 ++ evs1 ++ evs2) ->
  len (ideal_evs (evs0 ++ evs1 ++ evs2)) < 2 ^ 38 ->
  exists y0, sys_run id_size sort_size (mkSys ifs_empty []) evs0 = Ok y0 /\
  (no_unlink id_size sort_size y0 (evs1 ++ evs2) ->
  exists y1 y2 l, sys_run id_size sort_size y0 evs1 = Ok y1 /\ sys_run id_size sort_size y1 evs2 = Ok y2 /\
    lookup3 (y_fs y0) (y_fs y1) (y_fs y2) None = Ok l /\ incl (ideal_evs evs0) l).
Proof. exact reader_quiet. Qed.
Print Assumptions C13_concurrent_lookup_partial.
Example C13_case :   (* the housekeeper runs up to its rename during the lookup *)
  match sys_run 32 4096 (mkSys ifs_empty []) w_before with
  | Ok y0 => no_unlink 32 4096 y0 (firstn 4 w_during ++ firstn 3 (skipn 4 w_during))
  | _ => False
  end.
Proof.
  vm_compute. repeat (apply conj; [first [exact I | intros a E; discriminate E]|]). exact I.
Qed.

Theorem C13_refuted : exists id_size sort_size evs0 evs1 evs2 y0 y1 y2,
  ok_conf id_size sort_size /\ Forall ok_ev (evs0 ++ evs1 ++ evs2) /\
  sys_run id_size sort_size (mkSys ifs_empty []) evs0 = Ok y0 /\
  sys_run id_size sort_size y0 evs1 = Ok y1 /\ sys_run id_size sort_size y1 evs2 = Ok y2 /\
  ideal_evs evs0 <> [] /\ lookup3 (y_fs y0) (y_fs y1) (y_fs y2) None = Ok [].
Proof. exact reader_misses. Qed.
Print Assumptions C13_refuted.
