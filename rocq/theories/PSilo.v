(* Property theorems C18, C19: silo names and iteration. *)
From Coq Require Import String.
From Verif Require Import Base BaseLemmas SiloNameModel SiloNameSpec SiloNameProofs.
Open Scope string_scope.
Open Scope list_scope.
Open Scope N_scope.

(* C18: a silo name determines the silo number, and a hold file is never
   another silo (or its hold file). *)
Theorem C18_names : forall dirname b n m h1 h2, ok_base b ->
  Silo_Filename dirname b n h1 = Silo_Filename dirname b m h2 -> n = m /\ h1 = h2.
Proof. exact filename_inj. Qed.
Print Assumptions C18_names.

(* C18: two silos share a directory iff they are in the same block of 100. *)
Theorem C18_blocks : forall dirname n m,
  Silo_Dirname dirname n = Silo_Dirname dirname m <-> n / 100 = m / 100.
Proof. exact dirname_block. Qed.
Print Assumptions C18_blocks.

(* C18: that directory is where the silo is *)
Theorem C18_parent : forall dirname b n h, exists base,
  Silo_Filename dirname b n h = Silo_Dirname dirname n ++ base /\ (ok_base b -> ~ In 47 base).
Proof. exact filename_dir. Qed.
Print Assumptions C18_parent.
Example C18_case : ok_base default_basename /\
  Silo_Filename (str "/aa/") default_basename 12345 true = str "/aa/2/01/23/00012345.warc.gz.hold" /\
  Silo_Filename (str "/aa/") default_basename 7 false = str "/aa/0/00000007.warc.gz" /\
  Silo_Filename (str "/aa/") default_basename 987 false = str "/aa/1/09/00000987.warc.gz".
Proof. split; [split; cbn; intuition discriminate|]. vm_compute. auto. Qed.

(* C19: if k is the first silo number whose directory is missing, iterating
   calls back, in increasing order and once each, for the regular files among
   silos 0..k-1, through the first one the callback refuses. *)
Theorem C19_iter : forall noent reg stop dirname b k fuel, k < 2 ^ 32 ->
  noent (Silo_Dirname dirname k) = true ->
  (forall u, u < k -> noent (Silo_Dirname dirname u) = false) ->
  (N.to_nat k < fuel)%nat ->
  Silo_Iter noent reg (visit stop) fuel dirname b [] =
  Ok (map (fun u => (Silo_Filename dirname b u false, u))
        (until stop (filter (fun u => reg (Silo_Filename dirname b u false)) (upto k))), 0%Z).
Proof. exact iter_all. Qed.
Print Assumptions C19_iter.

(* C19: in particular a silo is visited iff it is a regular file and no
   directory up to its own is missing; and it is visited once. *)
Theorem C19_visited : forall noent reg dirname b k fuel, k < 2 ^ 32 ->
  noent (Silo_Dirname dirname k) = true -> (N.to_nat k < fuel)%nat ->
  exists l, Silo_Iter noent reg (visit (fun _ => false)) fuel dirname b [] = Ok (l, 0%Z) /\
    NoDup (map snd l) /\
    (forall u, In u (map snd l) <->
      reg (Silo_Filename dirname b u false) = true /\
      (forall v, v <= u -> noent (Silo_Dirname dirname v) = false)).
Proof. exact iter_visited. Qed.
Print Assumptions C19_visited.
Definition ex_noent (p : bytes) : bool :=
  negb (bytes_eqb p (str "s/0/") || bytes_eqb p (str "s/1/01/")).
Definition ex_reg (p : bytes) : bool :=
  bytes_eqb p (str "s/0/00000003.warc.gz") || bytes_eqb p (str "s/1/01/00000150.warc.gz")
  || bytes_eqb p (str "s/1/07/00000700.warc.gz").
Example C19_case : ex_noent (Silo_Dirname (str "s/") 200) = true /\
  (forall u, u < 200 -> ex_noent (Silo_Dirname (str "s/") u) = false) /\
  Silo_Iter ex_noent ex_reg (visit (fun _ => false)) 201 (str "s/") default_basename [] =
    Ok ([(str "s/0/00000003.warc.gz", 3); (str "s/1/01/00000150.warc.gz", 150)], 0%Z).
Proof.
  split; [vm_compute; reflexivity|]. split; [|vm_compute; reflexivity]. intros u Hu.
  assert (E : u / 100 = 0 \/ u / 100 = 1).
  { assert (u / 100 < 2) by (apply N.div_lt_upper_bound; [discriminate|exact Hu]).
    destruct (u / 100) as [|[p|p|]]; auto; discriminate || (destruct p; discriminate). }
  destruct E as [E|E].
  - rewrite (proj2 (dirname_block (str "s/") u 0)) by exact E. reflexivity.
  - rewrite (proj2 (dirname_block (str "s/") u 100)) by exact E. reflexivity.
Qed.
