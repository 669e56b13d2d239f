(* List facts not in the standard library of this version. *)
From Coq Require Import List NArith Lia.
From Coq Require Import ZifyNat ZifyN.
From Verif Require Import Base.
Import ListNotations.

Lemma skipn_skipn {A} (n m : nat) (l : list A) : skipn n (skipn m l) = skipn (n + m) l.
Proof.
  revert l; induction m as [|m IH]; intros l; [rewrite Nat.add_0_r; auto|].
  rewrite Nat.add_succ_r. destruct l; [rewrite !skipn_nil; auto|]. simpl. apply IH.
Qed.

Lemma firstn_app_len {A} (a b : list A) : firstn (length a) (a ++ b) = a.
Proof. rewrite firstn_app, firstn_all, Nat.sub_diag, firstn_O, app_nil_r. auto. Qed.

Lemma skipn_app_len {A} (a b : list A) : skipn (length a) (a ++ b) = b.
Proof. rewrite skipn_app, skipn_all, Nat.sub_diag, skipn_O. auto. Qed.

Lemma len_app {A} (a b : list A) : len (a ++ b) = (len a + len b)%N.
Proof. unfold len. rewrite app_length. lia. Qed.

Lemma len_cons {A} (x : A) l : len (x :: l) = (1 + len l)%N.
Proof. unfold len. simpl length. lia. Qed.

Lemma len_nil {A} : len (@nil A) = 0%N.
Proof. reflexivity. Qed.

Lemma len_0 {A} (l : list A) : len l = 0%N -> l = [].
Proof. destruct l; auto. rewrite len_cons. lia. Qed.

Lemma app_eq_len {A} (a b c d : list A) : length a = length c -> a ++ b = c ++ d -> a = c /\ b = d.
Proof.
  revert c; induction a as [|x a IH]; intros [|y c] L E; simpl in *; try discriminate; auto.
  injection E as -> E. injection L as L. destruct (IH c L E) as [-> ->]. auto.
Qed.

Lemma firstn_split {A} (k n : nat) (l : list A) : (k <= n)%nat -> firstn n l = firstn k l ++ firstn (n - k)%nat (skipn k l).
Proof.
  revert n l; induction k as [|k IH]; intros n l H; [rewrite Nat.sub_0_r; auto|].
  destruct n as [|n]; [lia|]. destruct l; [simpl; rewrite firstn_nil; auto|]. simpl. rewrite <- IH by lia. auto.
Qed.
