(** The matrix of the filter and its elimination. *)
From Coq Require Import ZArith List Bool Lia Reals Lra Field ZifyBool.
From Verif Require Import M_Base M_Exec M_Real M_Matrix M_Hodrick S_Matrix S_Hodrick L_Matrix L_Estim2 L_Estim3.
Import ListNotations.
Open Scope R_scope.

Lemma sum_to_eq n f : sum_to n f = SumR n f.
Proof. induction n as [|n IH]; [reflexivity|]. cbn [sum_to]. rewrite IH. reflexivity. Qed.

(** * The matrix *)

Definition I (a b : nat) : R := if Nat.eqb a b then 1 else 0.
Definition d (k i : nat) : R := I k i - 2 * I (k + 1) i + I (k + 2) i.
Lemma pick n a f : SumR n (fun k => I k a * f k) = if Nat.ltb a n then f a else 0.
Proof.
  unfold I. destruct (Nat.ltb_spec a n) as [H|H].
  - unfold SumR. rewrite (Sum_one reals reals_field n _ a H); [rewrite Nat.eqb_refl; cbn; ring|]. intros k Hk N. destruct (Nat.eqb_spec k a); [contradiction|]. cbn. ring.
  - unfold SumR. apply (Sum_zero reals reals_field). intros k Hk. destruct (Nat.eqb_spec k a); [lia|]. cbn. ring.
Qed.
Lemma pick1 n a f : SumR n (fun k => I (k + 1) a * f k) = if Nat.ltb 0 a && Nat.ltb (a - 1) n then f (a - 1)%nat else 0.
Proof.
  destruct (Nat.ltb_spec 0 a) as [H|H]; cbn [andb].
  - rewrite <- pick. apply sum_ext. intros k Hk. f_equal. unfold I. destruct (Nat.eqb_spec (k + 1) a), (Nat.eqb_spec k (a - 1)); try reflexivity; lia.
  - unfold SumR. apply (Sum_zero reals reals_field). intros k Hk. unfold I. destruct (Nat.eqb_spec (k + 1) a); [lia|]. cbn. ring.
Qed.
Lemma pick2 n a f : SumR n (fun k => I (k + 2) a * f k) = if Nat.ltb 1 a && Nat.ltb (a - 2) n then f (a - 2)%nat else 0.
Proof.
  destruct (Nat.ltb_spec 1 a) as [H|H]; cbn [andb].
  - rewrite <- pick. apply sum_ext. intros k Hk. f_equal. unfold I. destruct (Nat.eqb_spec (k + 2) a), (Nat.eqb_spec k (a - 2)); try reflexivity; lia.
  - unfold SumR. apply (Sum_zero reals reals_field). intros k Hk. unfold I. destruct (Nat.eqb_spec (k + 2) a); [lia|]. cbn. ring.
Qed.
Lemma d_at n k x : (k + 2 < n)%nat -> SumR n (fun i => d k i * x i) = second x k.
Proof.
  intros H. rewrite (sum_ext n _ (fun i => I i k * x i + (-2 * (I i (k + 1) * x i) + I i (k + 2) * x i))).
  - rewrite !sum_plus, sum_mult, !pick. replace (Nat.ltb k n) with true by lia. replace (Nat.ltb (k + 1) n) with true by lia. replace (Nat.ltb (k + 2) n) with true by lia.
    unfold second. ring.
  - intros i _. unfold d, I. rewrite (Nat.eqb_sym k i), (Nat.eqb_sym (k + 1) i), (Nat.eqb_sym (k + 2) i). ring.
Qed.
Lemma d_over N i f : SumR N (fun k => d k i * f k)
  = (if Nat.ltb i N then f i else 0) - 2 * (if Nat.ltb 0 i && Nat.ltb (i - 1) N then f (i - 1)%nat else 0)
    + (if Nat.ltb 1 i && Nat.ltb (i - 2) N then f (i - 2)%nat else 0).
Proof.
  rewrite (sum_ext N _ (fun k => I k i * f k + (-2 * (I (k + 1) i * f k) + I (k + 2) i * f k))) by (intros; unfold d; ring).
  rewrite !sum_plus, sum_mult, pick, pick1, pick2. ring.
Qed.
Ltac cases := repeat match goal with
  | |- context [Nat.eqb ?a ?b] => destruct (Nat.eqb_spec a b); try (exfalso; lia)
  | |- context [Nat.ltb ?a ?b] => destruct (Nat.ltb_spec a b); try (exfalso; lia)
  | |- context [Nat.leb ?a ?b] => destruct (Nat.leb_spec a b); try (exfalso; lia)
  end.
Lemma weight_other y l j : (length y <= j)%nat -> @Logic.eq R (weight reals y l j) 0.
Proof. intros H. unfold weight. apply nth_error_None in H. rewrite H. reflexivity. Qed.
Lemma y1_at l j : @Logic.eq R (weight reals y1 l j) (l * (I j 0 - 2 * I j 1 + I j 2)).
Proof. destruct j as [|[|[|j]]]; unfold I; cbn [Nat.eqb]; try (cbn; (reflexivity || ring)). rewrite weight_other by (cbn; lia). ring. Qed.
Lemma y2_at l j : @Logic.eq R (weight reals y2 l j) (l * (-2 * I j 0 + 5 * I j 1 - 4 * I j 2 + I j 3)).
Proof. destruct j as [|[|[|[|j]]]]; unfold I; cbn [Nat.eqb]; try (cbn; (reflexivity || ring)). rewrite weight_other by (cbn; lia). ring. Qed.
Lemma yn_at l j : @Logic.eq R (weight reals yn l j) (l * (I j 0 - 4 * I j 1 + 6 * I j 2 - 4 * I j 3 + I j 4)).
Proof. destruct j as [|[|[|[|[|j]]]]]; unfold I; cbn [Nat.eqb]; try (cbn; (reflexivity || ring)). rewrite weight_other by (cbn; lia). ring. Qed.
Lemma weights_at n l i j : (4 <= n)%nat -> (i < n)%nat -> (j < n)%nat -> @Logic.eq R (HP_weights reals n l i j) (l * SumR (n - 2) (fun k => d k i * d k j)).
Proof.
  intros Hn Hi Hj. rewrite d_over. unfold HP_weights.
  destruct (Nat.eqb_spec i 0) as [->|N0]; [rewrite y1_at; unfold d, I; cases; cbn [andb]; ring|].
  destruct (Nat.eqb_spec i (n - 1)) as [->|N1]; [rewrite y1_at; unfold d, I; cases; cbn [andb]; ring|].
  destruct (Nat.eqb_spec i 1) as [->|N2]; [rewrite y2_at; unfold d, I; cases; cbn [andb]; ring|].
  destruct (Nat.eqb_spec i (n - 2)) as [->|N3]; [rewrite y2_at; unfold d, I; cases; cbn [andb]; ring|].
  replace (Nat.ltb i (n - 2)) with true by lia. replace (Nat.ltb 0 i && Nat.ltb (i - 1) (n - 2)) with true by lia.
  replace (Nat.ltb 1 i && Nat.ltb (i - 2) (n - 2)) with true by lia.
  destruct (Nat.leb_spec (i - 2) j) as [L|L].
  - rewrite yn_at. unfold d, I. cases; ring.
  - cbn [reals ofZ]. unfold d, I. cases; ring.
Qed.
Definition H (n : nat) (l : R) (i j : nat) : R := I i j + l * SumR (n - 2) (fun k => d k i * d k j).
Lemma matrix_at n l i j : (4 <= n)%nat -> (i < n)%nat -> (j < n)%nat -> @Logic.eq R (get (HP_matrix reals n l) i j) (H n l i j).
Proof.
  intros Hn Hi Hj. unfold HP_matrix. rewrite (get_build reals) by assumption. unfold H, I. pose proof (weights_at n l i j Hn Hi Hj) as W.
  destruct (Nat.eqb i j); cbn [reals add ofZ]; [change (HP_weights reals n l i j + 1 = 1 + l * SumR (n - 2) (fun k => d k i * d k j))|]; lra.
Qed.
(** The bilinear form. *)
Lemma form n l (u x : nat -> R) : SumR n (fun i => u i * SumR n (fun j => H n l i j * x j))
  = SumR n (fun i => u i * x i) + l * SumR (n - 2) (fun k => second u k * second x k).
Proof.
  assert (E : forall i, (i < n)%nat -> SumR n (fun j => H n l i j * x j) = x i + l * SumR (n - 2) (fun k => d k i * second x k)).
  { intros i Hi. unfold H. rewrite (sum_ext n _ (fun j => I j i * x j + l * SumR (n - 2) (fun k => d k i * (d k j * x j)))).
    - rewrite sum_plus, pick. replace (Nat.ltb i n) with true by lia. f_equal. rewrite sum_mult. f_equal.
      unfold SumR. rewrite (Sum_swap reals reals_field). apply (Sum_ext reals). intros k Hk. cbn beta. change (Sum reals n) with (SumR n). rewrite sum_mult. rewrite d_at by lia. reflexivity.
    - intros j _. unfold I. rewrite (Nat.eqb_sym j i). rewrite Rmult_plus_distr_r. f_equal. rewrite Rmult_assoc. f_equal.
      rewrite Rmult_comm, <- sum_mult. apply sum_ext. intros k _. ring. }
  rewrite (sum_ext n _ (fun i => u i * x i + l * SumR (n - 2) (fun k => second x k * (d k i * u i)))).
  - rewrite sum_plus. f_equal. rewrite sum_mult. f_equal. unfold SumR. rewrite (Sum_swap reals reals_field). apply (Sum_ext reals). intros k Hk. cbn beta. change (Sum reals n) with (SumR n).
    rewrite sum_mult, d_at by lia. apply Rmult_comm.
  - intros i Hi. rewrite (E i Hi). rewrite Rmult_plus_distr_l. f_equal. rewrite Rmult_comm, Rmult_assoc. f_equal. rewrite Rmult_comm, <- sum_mult. apply sum_ext. intros k _. ring.
Qed.
