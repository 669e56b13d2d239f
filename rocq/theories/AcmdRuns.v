(* Archives on disk, for the examples of the command lines of audit, reindex and rebuild. *)
From Coq Require Import String Permutation.
From Coq Require Import ZifyBool ZifyNat ZifyN.
From Verif Require Import RebuildModel RebuildSpec RebuildTop RebuildToy RebuildRuns.
From Verif Require Import Base BaseLemmas ListLemmas IndexModel IndexSpec HeaderModel HeaderSpec InflateSpec ProgModel StoreModel StoreSpec StoreSysModel StoreSys
  StoreToy StoreRuns SiloNameModel SiloNameSpec SiloNameProofs ReindexModel ReindexSpec ReindexMain ReindexRuns AuditModel AuditSpec AuditProofs AuditMain AuditRuns
  CmdModel CmdSpec CmdMain OthMain AcmdModel AcmdSpec AcmdMain.
Open Scope string_scope.
Open Scope list_scope.
Open Scope N_scope.
Ltac Zify.zify_post_hook ::= Z.div_mod_to_equations.

Definition here (n : N) : bytes := Silo_Filename (str "s/") default_basename n false.
Definition place (s : fs) (p : bytes) : option bytes :=
  match find (fun n => bytes_eqb p (here n)) (SiloNameSpec.upto 100) with
  | Some n => option_map fst (f_silo s n)
  | None => None
  end.
Definition disk_of (s : fs) : disk :=
  mkDisk (fun p => negb (bytes_eqb p (str "s/0/"))) (fun p => match place s p with Some _ => true | None => false end) (place s).
Lemma default_ok : ok_base default_basename.
Proof. split; cbn; intuition discriminate. Qed.
Lemma place_here s n : n < 100 -> place s (here n) = option_map fst (f_silo s n).
Proof.
  intros H. unfold place. destruct (find _ _) as [m|] eqn:F.
  - apply find_some in F. destruct F as [_ E]. apply bytes_eqb_true in E. apply (filename_inj _ _ _ _ _ _ default_ok) in E. destruct E as [-> _]. auto.
  - exfalso. pose proof (find_none _ _ F n (proj2 (upto_in 100 n) H)) as X. cbn beta in X. rewrite bytes_eqb_refl in X. discriminate.
Qed.
Lemma place_none s n : 100 <= n -> place s (here n) = None.
Proof.
  intros H. unfold place. destruct (find _ _) as [m|] eqn:F; [|auto]. exfalso. apply find_some in F. destruct F as [I E]. apply upto_in in I.
  apply bytes_eqb_true in E. apply (filename_inj _ _ _ _ _ _ default_ok) in E. destruct E as [-> _]. lia.
Qed.
Lemma disk_of_ok s k : gapless s k -> k <= 100 -> on_disk (str "s/") default_basename s (disk_of s) 100.
Proof.
  intros G H. assert (A : forall n, f_silo s n <> None -> n < 100) by (intros n S; apply G in S; lia). constructor; cbn [disk_of d_noent d_reg d_file].
  - lia.
  - reflexivity.
  - intros n Hn. rewrite (proj2 (dirname_block (str "s/") n 0)) by lia. reflexivity.
  - intros n Hn. fold (here n). rewrite place_here by auto. destruct (f_silo s n) as [(f, w)|]; cbn; intuition discriminate.
  - intros n. fold (here n). destruct (N.lt_ge_cases n 100) as [Hn|Hn]; [apply place_here; auto|]. rewrite place_none by auto.
    destruct (f_silo s n) eqn:E; [|auto]. assert (n < 100) by (apply A; congruence). lia.
  - exact A.
Qed.

Lemma audit_disk : exists x D, reach K toy x /\
  wo_procs x = [(JStore hello, Ret (Some hello_id)); (JStore big, Ret (Some big_id)); (JStore about_big, Ret (Some about_id))] /\
  on_disk (str "s/") default_basename (wo_fs x) D 100 /\
  once K toy (wo_fs x) /\ in_order K toy (wo_fs x) /\ gapless (wo_fs x) 3 /\ meta_named K toy false (wo_fs x) /\ len (f_idx (wo_fs x)) = 7 /\
  written [o_i] [o_h] [] [] [str "--"].
Proof.
  destruct clean_run as (x & R & P & H1 & H2 & H3 & H4 & H5 & _). exists x, (disk_of (wo_fs x)). split; [exact R|]. split; [exact P|].
  split; [apply (disk_of_ok _ 3); [exact H3|lia]|]. repeat (split; [assumption|]). apply audit_getopt. reflexivity.
Qed.
Lemma audit_files_case : written [o_i] [o_h] [(o_i, Some ignore_word)] [str "a"; str "b"] [str "-i"; ignore_word; str "a"; str "b"] /\
  ~ In (o_h, None) [(o_i, Some ignore_word)] /\ In ignore_word (CmdSpec.given o_i [(o_i, Some ignore_word)]).
Proof. split; [apply audit_getopt; reflexivity|]. split; [intros [E|[]]; discriminate E|left; reflexivity]. Qed.
Lemma audit_refused_case : forall os ops, written [o_i] [o_h] os ops [str "-x"] -> In (o_h, None) os.
Proof. intros os ops W. apply audit_getopt in W. injection W as E _. destruct os; discriminate E. Qed.

(* an archive which the audit complains about *)
Lemma forced_disk : exists x D out, reach K toy x /\ on_disk (str "s/") default_basename (wo_fs x) D 100 /\
  wo_procs x = [(JStore hello, Ret (Some hello_id)); (JStore (forced "one"), Ret (Some forced_id))] /\
  audit_cmd K toy (str "s/") default_basename 20 D [] = Ok (Some (out, 0)) /\ totals out = [(2, 1)] /\
  audit_cmd K toy (str "s/") default_basename 20 D [str "s/1"; here 0] = Ok (Some ([], 0)).
Proof.
  destruct forced_run as (x & R & P & _ & _ & G & _ & _ & out & A & T). exists x, (disk_of (wo_fs x)), out. split; [exact R|].
  assert (O : on_disk (str "s/") default_basename (wo_fs x) (disk_of (wo_fs x)) 100) by (apply (disk_of_ok _ 1); [exact G|lia]).
  split; [exact O|]. split; [exact P|]. split; [|split; [exact T|]].
  - rewrite (audit_whole K toy _ _ 20 _ _ 100 [] [] O); [|apply audit_getopt; reflexivity|intros []]. unfold ignores. cbn [CmdSpec.given flat_map existsb]. rewrite A. reflexivity.
  - apply (audit_nothing K toy _ _ 19 _ [] (str "s/1") [here 0]); [apply audit_getopt; reflexivity|intros []|].
    cbn [disk_of d_file]. unfold place. destruct (find _ _) as [m|] eqn:F; [|auto]. exfalso. apply find_some in F. destruct F as [_ E]. apply bytes_eqb_true in E.
    unfold here, Silo_Filename, fmt_base in E. apply (f_equal (@List.length N)) in E. revert E. rewrite !app_length. cbn [default_basename b_post b_pre]. cbn. lia.
Qed.
Lemma status_refuted : exists x D out, reach K toy x /\ on_disk (str "s/") default_basename (wo_fs x) D 100 /\
  audit_cmd K toy (str "s/") default_basename 20 D [] = Ok (Some (out, 0)) /\ totals out = [(2, 1)].
Proof. destruct forced_disk as (x & D & out & R & O & _ & A & T & _). exists x, D, out. auto. Qed.
Lemma missing_refuted : exists x D out, reach K toy x /\ on_disk (str "s/") default_basename (wo_fs x) D 100 /\
  audit_cmd K toy (str "s/") default_basename 20 D [] = Ok (Some (out, 0)) /\ totals out = [(2, 1)] /\
  audit_cmd K toy (str "s/") default_basename 20 D [str "s/1"; here 0] = Ok (Some ([], 0)).
Proof. destruct forced_disk as (x & D & out & R & O & _ & A & T & M). exists x, D, out. auto. Qed.
Lemma option_refuted C L dirname b fuel D : audit_cmd C L dirname b fuel D [str "-i"; str "ignore-metadata-record-ids"] = audit_cmd C L dirname b fuel D [].
Proof. reflexivity. Qed.

(* reindex *)
Lemma reindex_disk : exists x D, reach K toy x /\
  wo_procs x = [(JStore hello, Ret (Some hello_id)); (JStore big, Ret (Some big_id)); (JStore about_big, Ret (Some about_id))] /\
  on_disk (str "s/") default_basename (wo_fs x) D 100 /\ once K toy (wo_fs x) /\ len (f_idx (wo_fs x)) = 7 /\ written [] [o_h] [] [] [str "--"].
Proof.
  destruct clean_run as (x & R & P & H1 & H2 & H3 & H4 & H5 & _). exists x, (disk_of (wo_fs x)). split; [exact R|]. split; [exact P|].
  split; [apply (disk_of_ok _ 3); [exact H3|lia]|]. repeat (split; [assumption|]). apply hk_getopt. reflexivity.
Qed.
Lemma refused_case : forall ops, ~ written [] [o_h] [] ops [str "-h"; str "a"].
Proof. intros ops W. apply hk_getopt in W. discriminate W. Qed.
(* the same archive, but the first silo cannot be opened *)
Definition shut (D : disk) (fn : bytes) : disk := mkDisk (d_noent D) (d_reg D) (fun p => if bytes_eqb p fn then None else d_file D p).
Lemma silent_refuted : exists x D, reach K toy x /\ on_disk (str "s/") default_basename (wo_fs x) D 100 /\ len (f_idx (wo_fs x)) = 7 /\ f_silo (wo_fs x) 2 <> None /\
  forall es fuel, reindex_cmd K (str "s/") default_basename (S fuel) (shut D (here 0)) es [] = Ok (Some ([], [], 0)).
Proof.
  destruct clean_run as (x & R & P & H1 & H2 & H3 & H4 & H5 & _). exists x, (disk_of (wo_fs x)). split; [exact R|].
  split; [apply (disk_of_ok _ 3); [exact H3|lia]|]. split; [exact H5|]. split; [apply H3; lia|]. intros es fuel.
  assert (S0 : f_silo (wo_fs x) 0 <> None) by (apply H3; lia).
  apply reindex_silent; [apply hk_getopt; reflexivity|reflexivity| |].
  - cbn [shut disk_of d_reg]. fold (here 0). rewrite place_here by lia. destruct (f_silo (wo_fs x) 0); [auto|destruct (S0 eq_refl)].
  - cbn [shut d_file]. fold (here 0). rewrite bytes_eqb_refl. auto.
Qed.
Definition two_files : disk := mkDisk (fun _ => false) (fun _ => true) (fun p => if bytes_eqb p (str "s/0/00000007.warc.gz") then Some [] else None).
Lemma reindex_files_case : written [] [o_h] [] [str "s/0/00000007.warc.gz"; str "x"] [str "s/0/00000007.warc.gz"; str "x"] /\
  Forall2 (fun f x => named_after (fst f) (fst x) /\ fst x < 2 ^ 64 /\ snd f = snd x)
    (flat_map (fun fn => match d_file two_files fn with Some f => [(fn, f)] | None => [] end) [str "s/0/00000007.warc.gz"; str "x"]) [(7, [])] /\
  (forall es, main_reindex K es [(7, [])] = Ok ([OResort], [])) /\ d_file two_files (str "x") = None.
Proof.
  split; [apply hk_getopt; reflexivity|]. split.
  - cbn [flat_map two_files d_file]. change (bytes_eqb (str "x") (str "s/0/00000007.warc.gz")) with false. rewrite bytes_eqb_refl. constructor; [|constructor]. cbn [fst snd]. split; [|split; [lia|auto]].
    exists (str "s/0"), (str "00000007"), (str ".warc.gz"). split; [reflexivity|]. split; [discriminate|]. split; [repeat constructor|]. split; [reflexivity|].
    split; [cbn; intuition discriminate|reflexivity].
  - split; [intros es; reflexivity|reflexivity].
Qed.

(* rebuild *)
Definition silo1_disk : disk := mkDisk (fun _ => false) (fun _ => true) (fun p => if bytes_eqb p (str "a") then Some silo1 else None).
Lemma rebuild_line_case : written [] [o_h] [] [str "a"; str "b"] [str "a"; str "b"] /\ apart [str "a"; str "b"] /\
  Forall (fun fn => good_file (c_prefix RebuildRuns.K) 1024 false (d_file silo1_disk fn)) [str "a"; str "b"] /\ d_file silo1_disk (str "a") = Some silo1 /\ d_file silo1_disk (str "b") = None.
Proof.
  split; [apply hk_getopt; reflexivity|]. split.
  - intros fn fn' [<-|[<-|[]]] [<-|[<-|[]]]; discriminate.
  - split; [|split; reflexivity]. constructor; [exact silo1_good|]. constructor; [exact I|constructor].
Qed.
Lemma rebuild_all_case : exists s, on_disk (str "s/") default_basename s (disk_of s) 100 /\ f_silo s 0 <> None /\ ok_base default_basename /\
  forall n f w, f_silo s n = Some (f, w) -> good_file (c_prefix RebuildRuns.K) 1024 false (Some f).
Proof.
  exists (mkFs (fun n => if n =? 0 then Some (silo1, false) else None) (fun _ => None) [] None []). split; [apply (disk_of_ok _ 1); [|lia]|].
  - intros n. cbn [f_silo]. destruct (n =? 0) eqn:E; split; intros H; try lia; try congruence.
  - split; [discriminate|]. split; [split; cbn; intuition discriminate|]. intros n f w. cbn [f_silo]. destruct (n =? 0); [|discriminate]. intros E. injection E as <- _. exact silo1_good.
Qed.
