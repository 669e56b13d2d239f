(* Examples and counterexamples of sizes with a suffix. *)
From Coq Require Import String.
From Coq Require Import ZifyBool ZifyNat ZifyN.
From Verif Require Import Base BaseLemmas HeaderSpec ConfigModel ConfigSpec ConfigProofs NumModel NumSpec NumMain.
Open Scope string_scope.
Open Scope list_scope.
Open Scope N_scope.

Lemma size_case : size (str "3.5G") false 35 1 (str "G") (2 ^ 30) /\ size (str " +10240 kB") false 10240 0 (str "kB") (2 ^ 10) /\ size (str "-1") true 1 0 [] 1.
Proof.
  assert (D : forall a b, forallb is_digit (a ++ b) = true -> Forall (fun c => is_digit c = true) (a ++ b)) by (intros a b H; apply Forall_forall, forallb_forall; auto).
  split; [|split].
  - exists [], [], (str "3.5"), []. split; [constructor|]. split; [left; auto|]. split; [|split; [constructor|split; [cbn; tauto|reflexivity]]].
    exists (str "3"), (str "5"). split; [discriminate|]. split; [apply D; reflexivity|]. split; [reflexivity|]. split; [reflexivity|]. left. reflexivity.
  - exists (str " "), (str "+"), (str "10240"), (str " "). split; [repeat constructor|]. split; [left; auto|]. split; [|split; [repeat constructor|split; [cbn; tauto|reflexivity]]].
    exists (str "10240"), []. split; [discriminate|]. split; [apply D; reflexivity|]. split; [reflexivity|]. split; [reflexivity|]. right. auto.
  - exists [], (str "-"), (str "1"), []. split; [constructor|]. split; [right; auto|]. split; [|split; [constructor|split; [cbn; tauto|reflexivity]]].
    exists (str "1"), []. split; [discriminate|]. split; [apply D; reflexivity|]. split; [reflexivity|]. split; [reflexivity|]. right. auto.
Qed.

(* The defaults *)
Lemma defaults pow10 : pow_ok pow10 -> VNUM_2bytes pow10 (str "3.5G") = Ok (inl 3758096384) /\ VNUM_2bytes pow10 (str "10M") = Ok (inl 10485760).
Proof.
  intros PO. split.
  - destruct size_case as (S & _ & _). apply (size_exact pow10 PO _ _ _ _ _ _ S); try reflexivity; [lia|right; discriminate].
  - assert (S : size (str "10M") false 10 0 (str "M") (2 ^ 20)).
    { exists [], [], (str "10"), []. split; [constructor|]. split; [left; auto|]. split; [|split; [constructor|split; [cbn; tauto|reflexivity]]].
      exists (str "10"), []. split; [discriminate|]. split; [repeat constructor|]. split; [reflexivity|]. split; [reflexivity|]. right. auto. }
    rewrite (size_whole pow10 PO _ _ _ _ _ S); reflexivity.
Qed.

Lemma negative : exists s, size s true 1 0 [] 1 /\ VNUM_2bytes pow_ref s = UB.
Proof. exists (str "-1"). split; [apply size_case|vm_compute; reflexivity]. Qed.
(* Whole numbers below 2^53 *)
Lemma imprecise : VNUM_2bytes pow_ref (str "9007199254740991") = Ok (inl 9007199254740992).
Proof. vm_compute. reflexivity. Qed.
(* A fraction of zeros, without suffix *)
Lemma cut_down : VNUM_2bytes pow_ref (str "1.00000000000") = Ok (inl 0) /\ VNUM_2bytes pow_ref (str "1.00000000000b") = Ok (inl 1).
Proof. split; vm_compute; reflexivity. Qed.

Lemma not_form : ~ size_form (str "big").
Proof.
  intros (s1 & g & neg & x & n & d & y & s2 & u & k & _ & _ & (a & b & NE & A & _ & _ & F) & _ & _ & _ & E).
  assert (X : exists c, In c x /\ is_digit c = true).
  { destruct a as [|c a].
    - destruct b as [|c b]; [contradiction|]. exists c. inversion A; subst. split; auto. destruct F as [->|(-> & D)]; [right; left; auto|discriminate].
    - exists c. inversion A; subst. split; auto. destruct F as [->|(-> & _)]; left; auto. }
  destruct X as (c & I & D). assert (J : In c (str "big")). { rewrite E. rewrite !in_app_iff. auto. }
  destruct J as [<-|[<-|[<-|[]]]]; discriminate D.
Qed.

(* In the configuration *)
Definition num_of (pow10 : dbl -> dbl) (v : bytes) : option N :=
  match VNUM_2bytes pow10 v with Ok (inl n) => Some n | _ => None end.
Lemma in_config pow10 strtoul fmt cfg aa : pow_ok pow10 -> AardWARC_New strtoul (num_of pow10) fmt cfg = Some aa ->
  (exists v, setting cfg (str "silo.max_size") (str "3.5G") v /\ size_form v /\
     forall n d u k x, size v false n d u k -> n + 48 < 2 ^ 53 -> (d < 300)%nat -> d = O \/ u <> [] -> n * k = x * 10 ^ N.of_nat d -> x < 2 ^ 49 ->
       aa_silo_maxsize aa = x) /\
  (exists v, setting cfg (str "index.sort_size") (str "10M") v /\ size_form v /\
     forall n d u k x, size v false n d u k -> n + 48 < 2 ^ 53 -> (d < 300)%nat -> d = O \/ u <> [] -> n * k = x * 10 ^ N.of_nat d -> x < 2 ^ 49 ->
       aa_index_sort_size aa = 32 * (x / 32)).
Proof.
  intros PO H. apply new_settings in H. destruct H as (_ & _ & (v & S & V) & _ & (v' & n' & S' & V' & E')). unfold num_of in V, V'. split.
  - exists v. split; auto. split.
    + destruct (num_form pow10 v) as [F|(msg & F)]; auto. rewrite F in V. discriminate.
    + intros n d u k x SZ B D DU X XB. rewrite (size_exact pow10 PO v n d u k x SZ B D DU X XB) in V. congruence.
  - exists v'. split; auto. split.
    + destruct (num_form pow10 v') as [F|(msg & F)]; auto. rewrite F in V'. discriminate.
    + intros n d u k x SZ B D DU X XB. rewrite (size_exact pow10 PO v' n d u k x SZ B D DU X XB) in V'. injection V' as <-. auto.
Qed.

Lemma config_case : AardWARC_New (fun _ => 128) (num_of pow_ref) (fun _ => true)
  [mkSc (str "WARC-Record-ID") [mkE (str "http://x/") (Some (str "128"))];
   mkSc (str "silo.max_size") [mkE (str "0.25t") None];
   mkSc (str "silo.directory") [mkE (str "/aa/") None]] =
  Some (mkAA (str "http://x/") 32 (str "/aa/") (2 ^ 38) (str "%08u.warc.gz") 10485760).
Proof. vm_compute. reflexivity. Qed.
