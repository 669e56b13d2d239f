(* Runs used as examples and counterexamples of what cgi prints. *)
From Coq Require Import String.
From Coq Require Import ZifyBool ZifyNat ZifyN.
From Verif Require Import Base BaseLemmas ListLemmas IndexModel IndexSpec HeaderModel HeaderSpec InflateSpec GzipModel GzipSpec
  ProgModel StoreModel StoreSpec StoreSysModel StoreToy StoreToyOk StoreWit StoreRuns StoreEnd CgiModel CgiSpec CgiMain.
Open Scope string_scope.
Open Scope list_scope.
Open Scope N_scope.

Definition env (path : bytes) (accept : option bytes) : cgi_env := mkEnv (Some (str "CGI/1.1")) (Some (str "GET")) (Some path) accept.

Definition lf : bytes := [10].
(* Two requests which declare a type of more than one line. *)
Definition evil (mime : bytes) : request := mkReq false mime [] None [str "Hello, world"].
Definition mime1 : bytes := str "text/plain" ++ lf ++ str "Status: 404".
Definition mime2 : bytes := str "text/plain" ++ lf ++ lf ++ str "Goodbye".

Definition page (s : fs) (e : cgi_env) (out : bytes) : bool :=
  match snd (run (main_cgi K toy e) s) with inl (CgiPage o) => bytes_eqb o out | _ => false end.
Lemma page_ok s e out : page s e out = true -> snd (run (main_cgi K toy e) s) = inl (CgiPage out).
Proof.
  unfold page. destruct (snd (run (main_cgi K toy e) s)) as [[| |o]|]; try discriminate. intros H. apply bytes_eqb_true in H. congruence.
Qed.

Definition out1 : bytes := str "Content-Type: text/plain" ++ lf ++ str "Status: 404" ++ lf ++ str "Content-Length: 12" ++ lf ++
  str "Status: 200" ++ lf ++ lf ++ str "Hello, world".
Definition rest2 : bytes := str "Goodbye" ++ lf ++ str "Content-Length: 12" ++ lf ++ str "Status: 200" ++ lf ++ lf ++ str "Hello, world".
Definition out2 : bytes := str "Content-Type: text/plain" ++ lf ++ lf ++ rest2.

Ltac small := match goal with |- reply_field _ => split; [discriminate|cbn [fst snd]; split; [|split]; intros X; repeat (destruct X as [X|X]; [discriminate|]); destruct X] end.

Lemma evil_run mime out : 
  match go K toy lim (each [JStore (evil mime)] 0) w0 with
  | Some x => all_as [inl (Some hello_id)] 0 x && (quiet 2 x && page (wo_fs x) (env (47 :: hello_id) None) out) | None => false end = true ->
  exists x, reach K toy x /\ wo_procs x = [(JStore (evil mime), Ret (Some hello_id))] /\ apart K (wo_fs x) /\
    snd (run (main_cgi K toy (env (47 :: hello_id) None)) (wo_fs x)) = inl (CgiPage out).
Proof.
  intros H. destruct (go_all (each [JStore (evil mime)] 0) [inl (Some hello_id)] (fun x => quiet 2 x && page (wo_fs x) (env (47 :: hello_id) None) out) H eq_refl)
    as (x & R & E & O). rewrite andb_true_iff in O. destruct O as (O1 & O2).
  exists x. split; [auto|]. split; [exact E|]. split; [apply (quiet_ok _ _ O1)|]. apply page_ok. auto.
Qed.

Lemma evil1 : exists x out, reach K toy x /\ wo_procs x = [(JStore (evil mime1), Ret (Some hello_id))] /\ apart K (wo_fs x) /\
  snd (run (main_cgi K toy (env (47 :: hello_id) None)) (wo_fs x)) = inl (CgiPage out) /\
  reply out [(str "Content-Type", str "text/plain"); (str "Status", str "404"); (str "Content-Length", str "12"); (str "Status", str "200")] (str "Hello, world").
Proof.
  destruct (evil_run mime1 out1) as (x & R & E & A & P); [vm_cast_no_check (eq_refl true)|].
  exists x, out1. split; [auto|]. split; [auto|]. split; [auto|]. split; [auto|]. split; [|reflexivity].
  repeat (apply Forall_cons || apply Forall_nil); small.
Qed.

Lemma evil2 : exists x out, reach K toy x /\ wo_procs x = [(JStore (evil mime2), Ret (Some hello_id))] /\ apart K (wo_fs x) /\
  snd (run (main_cgi K toy (env (47 :: hello_id) None)) (wo_fs x)) = inl (CgiPage out) /\
  reply out [(str "Content-Type", str "text/plain")] rest2.
Proof.
  destruct (evil_run mime2 out2) as (x & R & E & A & P); [vm_cast_no_check (eq_refl true)|].
  exists x, out2. split; [auto|]. split; [auto|]. split; [auto|]. split; [auto|]. split; [|reflexivity].
  repeat (apply Forall_cons || apply Forall_nil); small.
Qed.

Lemma evil_ok mime : mime = mime1 \/ mime = mime2 -> request_ok (evil mime).
Proof.
  assert (IB : forall s, forallb (fun c => c <? 256) s = true -> is_bytes s).
  { intros s H. apply Forall_forall. intros c Hc. rewrite forallb_forall in H. specialize (H c Hc). lia. }
  intros M. split.
  - destruct M as [-> | ->]; (split; [|split; [apply IB; reflexivity|vm_compute; discriminate]]); split; intros X; repeat (destruct X as [X|X]; [discriminate|]); destruct X.
  - constructor; [|constructor]. split; [discriminate|]. apply IB. reflexivity.
  - vm_compute. reflexivity.
Qed.

(* gzip is refused, and sent *)
Definition zip_page (s : fs) (e : cgi_env) : bool :=
  match snd (run (main_cgi K toy e) s) with
  | inl (CgiPage o) => let f := str "Content-Type: text/plain" ++ lf ++ str "Content-Encoding: gzip" ++ lf in bytes_eqb (firstn (List.length f) o) f
  | _ => false
  end.
Lemma refused : exists x y, reach K toy x /\ wo_procs x = [(JStore hello, Ret (Some hello_id))] /\ apart K (wo_fs x) /\
  snd (run (main_cgi K toy (env (47 :: hello_id) (Some (str "identity, gzip;q=0")))) (wo_fs x)) = 
    inl (CgiPage (str "Content-Type: text/plain" ++ lf ++ str "Content-Encoding: gzip" ++ lf ++ y)).
Proof.
  destruct (go_all (each [JStore hello] 0) [inl (Some hello_id)] (fun x => quiet 2 x && zip_page (wo_fs x) (env (47 :: hello_id) (Some (str "identity, gzip;q=0")))))
    as (x & R & E & O); [vm_cast_no_check (eq_refl true)|reflexivity|].
  rewrite andb_true_iff in O. destruct O as (O1 & O2). unfold zip_page in O2. revert O2.
  destruct (snd (run (main_cgi K toy (env (47 :: hello_id) (Some (str "identity, gzip;q=0")))) (wo_fs x))) as [[| |o]|] eqn:EO; try discriminate.
  cbv zeta. set (f := str "Content-Type: text/plain" ++ lf ++ str "Content-Encoding: gzip" ++ lf). intros O2. apply bytes_eqb_true in O2.
  exists x, (skipn (List.length f) o). split; [auto|]. split; [exact E|]. split; [apply (quiet_ok _ _ O1)|]. rewrite EO. f_equal. f_equal.
  rewrite <- (firstn_skipn (List.length f) o) at 1. rewrite O2. unfold f. rewrite <- !app_assoc. reflexivity.
Qed.

(* The hypotheses of the theorem about cgi are met: by an object in one record, with
   other commands afterwards, *)
Lemma cgi_case : exists x y, reach K toy x /\ (forall j p, In (j, p) (wo_procs x) -> exists a, p = Ret a) /\ apart K (wo_fs x) /\
  In (JStore hello, Ret (Some hello_id)) (wo_procs x) /\ (List.length (f_idx (wo_fs x)) <= c_fuel K)%nat /\
  good_id (c_prefix K) (c_idsize K) hello_id hello_dig /\ lower (c_prefix K ++ hello_dig) = lower hello_id /\
  steps K toy x y /\ new_apart K (wo_fs x) (wo_fs y) /\ cgi_get (env (47 :: hello_id) (Some (str "gzip"))) hello_id /\
  (forall r' b', In (JStore r', Ret (Some b')) (wo_procs x) -> lower b' = lower hello_id -> ~ In 10 (r_mime r')) /\ wo_procs y <> wo_procs x.
Proof.
  destruct later_run as (x & y & R & S & E & A & LI & EY & NA). exists x, y. split; [auto|]. split.
  { rewrite E. intros j p [H|[]]. injection H as _ <-. eauto. }
  split; [auto|]. split; [rewrite E; left; auto|]. split; [unfold len in LI; cbn [K toy_conf c_fuel]; lia|].
  split. { split; [|split; [reflexivity|right; exists (c_prefix K); split; reflexivity]]. repeat constructor. }
  split; [reflexivity|]. split; [auto|]. split; [auto|]. split; [split; [reflexivity|split; [reflexivity|eexists; split; [reflexivity|left; reflexivity]]]|].
  split; [|rewrite E, EY; discriminate].
  rewrite E. intros r' b' [H|[]] _. injection H as <- _. intros X. repeat (destruct X as [X|X]; [discriminate|]). destruct X.
Qed.

Lemma evil2_body : exists r x out body, request_ok r /\ reach K toy x /\ wo_procs x = [(JStore r, Ret (Some hello_id))] /\ apart K (wo_fs x) /\
  snd (run (main_cgi K toy (env (47 :: hello_id) None)) (wo_fs x)) = inl (CgiPage out) /\
  reply out [(str "Content-Type", str "text/plain")] body /\ body <> List.concat (r_data r).
Proof.
  destruct evil2 as (x & out & R & E & A & P & RP). exists (evil mime2), x, out, rest2. split; [apply evil_ok; auto|].
  split; [auto|]. split; [auto|]. split; [auto|]. split; [auto|]. split; [auto|discriminate].
Qed.
Lemma evil1_type : exists r x out, request_ok r /\ reach K toy x /\ wo_procs x = [(JStore r, Ret (Some hello_id))] /\ apart K (wo_fs x) /\
  snd (run (main_cgi K toy (env (47 :: hello_id) None)) (wo_fs x)) = inl (CgiPage out) /\
  reply out [(str "Content-Type", str "text/plain"); (str "Status", str "404"); (str "Content-Length", str "12"); (str "Status", str "200")] (str "Hello, world").
Proof. destruct evil1 as (x & out & H). exists (evil mime1), x, out. split; [apply evil_ok; auto|exact H]. Qed.
