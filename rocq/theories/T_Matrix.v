(** Inverse matrices and systems of linear equations. *)
From Coq Require Import ZArith List Bool Lia QArith Qcanon Field.
From Verif Require Import M_Base M_Exec M_Exact M_Matrix S_Matrix L_Matrix.
Import ListNotations.
Open Scope Z_scope.

(** * C83: the inverse and the solution *)

(** The matrix returned is the inverse, on both sides. *)
Theorem C83_inverse_partial : forall A, field_like A -> forall n a b, M_inv_1 A n a = Some b -> product_one A n a b /\ product_one A n b a.
Proof. intros A FL n a b H. split; [apply (inv_right A FL)|apply (inv_left A FL)]; exact H. Qed.
(** Without exchange of lines: the inverse is refused exactly when the first lines and columns of the matrix, for some
    number of them, form a singular matrix. *)
Theorem C83_inverse_refused : forall A, field_like A -> forall n a, M_inv_1 A n a = None <-> exists m, (0 < m <= n)%nat /\ singular A m a.
Proof. intros A FL n a. apply (inv_none A FL). Qed.
(** In particular it is never refused for a definite matrix (x'ax is 0 for x = 0 only), as X'X is. *)
Theorem C83_inverse_of_definite : forall A, field_like A -> forall n a,
  (forall x, (exists k, (k < n)%nat /\ nth k x (ofZ A 0) <> ofZ A 0) -> Sum A n (fun i => mul A (nth i x (ofZ A 0)) (row_times A n a x i)) <> ofZ A 0) ->
  exists b, M_inv_1 A n a = Some b.
Proof.
  intros A FL n a Def. destruct (M_inv_1 A n a) as [b|] eqn:E; [exists b; reflexivity|exfalso].
  apply (inv_none A FL) in E. destruct E as (m & Hm & x & Lx & Zx & k & Hk & Nk).
  pose proof (fl_field A FL) as Ft. apply (Def x); [exists k; split; [lia|exact Nk]|].
  apply (Sum_zero A FL). intros i Hi. pose proof (F_R Ft) as R. assert (M0l : forall z, mul A (ofZ A 0) z = ofZ A 0).
  { intros z. apply (Rmul_0_l (Eqsth (F A))) with (2 := R). apply Eq_ext. }
  destruct (Nat.lt_ge_cases i m) as [C|C].
  - assert (Hr : row_times A n a x i = row_times A m a x i).
    { unfold row_times. replace n with (m + (n - m))%nat by lia. rewrite (Sum_split A FL). rewrite (Sum_zero A FL (n - m)).
      - rewrite (Radd_comm R). apply (Radd_0_l R).
      - intros j Hj. rewrite (nth_overflow x) by lia. rewrite (Rmul_comm R). apply M0l. }
    rewrite Hr, (Zx i C). rewrite (Rmul_comm R). apply M0l.
  - rewrite (nth_overflow x) by lia. apply M0l.
Qed.
(** The vector returned is the solution, and none is found exactly when the matrix is singular, if no element that is compared
    with 0 is less than 1/10^25 without being 0. *)
Theorem C83_solve_partial : forall A, field_like A -> forall n a b x, no_tiny A n a b -> length b = n -> M_solve A n a b = Some x -> solution A n a x b.
Proof. intros A FL n a b x. apply (M_solve_ok A FL). Qed.
Theorem C83_no_solution_partial : forall A, field_like A -> forall n a b, n <> 0%nat -> no_tiny A n a b -> length b = n -> (M_solve A n a b = None <-> singular A n a).
Proof.
  intros A FL n a b N NT L. split; [apply (M_solve_none A FL); assumption|].
  intros S. destruct (M_solve A n a b) as [x|] eqn:E; [|reflexivity]. exfalso. exact (M_solve_some A FL n a b x NT E S).
Qed.
Print Assumptions C83_inverse_partial.
Print Assumptions C83_inverse_refused.
Print Assumptions C83_inverse_of_definite.
Print Assumptions C83_solve_partial.
Print Assumptions C83_no_solution_partial.

(** Refuted: an invertible matrix whose inverse is refused (the first element is 0). *)
Definition swap2 : mat exactly := map (map q_ofZ) [[0; 1]; [1; 0]].
Theorem C83_inverse_found_refuted : ~ (forall n (a : mat exactly), ~ singular exactly n a -> M_inv_1 exactly n a <> None).
Proof.
  intros H. apply (H 2%nat swap2); [|vm_compute; reflexivity].
  intros (x & Lx & Zx & k & Hk & Nk). destruct x as [|u [|v [|w x]]]; try discriminate Lx.
  pose proof (Zx 0%nat ltac:(lia)) as Z0. pose proof (Zx 1%nat ltac:(lia)) as Z1. unfold row_times in Z0, Z1. cbn [Sum nth get swap2 map] in Z0, Z1.
  cbn [exactly F add mul ofZ] in * . change Qc in u, v. change (q_ofZ 0) with 0%Qc in * . change (q_ofZ 1) with 1%Qc in * .
  assert (U : u = 0%Qc) by (rewrite <- Z1; ring). assert (V : v = 0%Qc) by (rewrite <- Z0; ring). subst u v.
  destruct k as [|[|k]]; [apply Nk; reflexivity|apply Nk; reflexivity|lia].
Qed.
(** Refuted: a system whose elements are small (here 1/10^26, the same for all elements) has a solution, and none is found. *)
Definition small : Qc := Qcdiv (q_ofZ 1) (q_ofZ (10 ^ 26)).
Theorem C83_small_refused_refuted : ~ (forall n (a : mat exactly) b x, solution exactly n a x b -> ~ singular exactly n a -> M_solve exactly n a b <> None).
Proof.
  intros H. apply (H 1%nat [[small]] [small] [q_ofZ 1]); [| |vm_compute; reflexivity].
  - split; [reflexivity|]. intros i Hi. replace i with 0%nat by lia. unfold row_times. cbn [Sum nth get]. cbn [exactly F add mul ofZ].
    change (q_ofZ 0) with 0%Qc. change (q_ofZ 1) with 1%Qc. ring.
  - intros (x & Lx & Zx & k & Hk & Nk). destruct x as [|u [|v x]]; try discriminate Lx.
    specialize (Zx 0%nat ltac:(lia)). unfold row_times in Zx. cbn [Sum nth get] in Zx. cbn [exactly F add mul ofZ] in * . change Qc in u. change (q_ofZ 0) with 0%Qc in * .
    apply Nk. replace k with 0%nat by lia. cbn. assert (E : (small * u)%Qc = 0%Qc) by (rewrite <- Zx; ring).
    destruct (Qcmult_integral _ _ E) as [S|S]; [|exact S]. exfalso. assert (Q : Qeq (this small) (this 0%Qc)) by (rewrite S; reflexivity). vm_compute in Q. discriminate Q.
Qed.
(** Refuted: and a vector can be returned that is not a solution (the second line is not eliminated). *)
Definition tiny_below : mat exactly := [[q_ofZ 1; q_ofZ 0]; [small; q_ofZ 1]].
Theorem C83_solution_refuted : ~ (forall n (a : mat exactly) b x, length b = n -> M_solve exactly n a b = Some x -> solution exactly n a x b).
Proof.
  intros H. destruct (M_solve exactly 2 tiny_below [q_ofZ 1; q_ofZ 1]) as [x|] eqn:E; [|vm_compute in E; discriminate E].
  destruct (H 2%nat tiny_below [q_ofZ 1; q_ofZ 1] x eq_refl E) as (Lx & Rx). specialize (Rx 1%nat ltac:(lia)).
  destruct x as [|u [|v [|w x]]]; try discriminate Lx.
  assert (Q : Qeq (this (row_times exactly 2 tiny_below [u; v] 1)) (this (q_ofZ 1))) by (rewrite Rx; reflexivity).
  vm_compute in E. injection E as Eu Ev. rewrite <- Eu, <- Ev in Q. vm_compute in Q. discriminate Q.
Qed.
Print Assumptions C83_inverse_found_refuted.
Print Assumptions C83_small_refused_refuted.
Print Assumptions C83_solution_refuted.

(** Non-vacuity. *)
Definition three : mat exactly := map (map q_ofZ) [[0; 2; 1]; [1; 1; 0]; [3; 0; 4]].
Definition tiny_check (n : nat) (a : mat exactly) (b : list Qc) : bool :=
  forallb (fun r => match gel_steps exactly n (seq 0 r) (mkSys a b) with
    | Some s => forallb (fun i => implb (ZERO exactly (get (s_a s) i r)) (Qeq_bool (this (get (s_a s) i r)) 0)) (seq r (n - r))
    | None => true end) (seq 0 n).
Lemma tiny_checked n a b : tiny_check n a b = true -> no_tiny exactly n a b.
Proof.
  unfold tiny_check. intros H r s Hr E i Hi Z. rewrite forallb_forall in H. specialize (H r ltac:(apply in_seq; lia)). rewrite E in H.
  rewrite forallb_forall in H. specialize (H i ltac:(apply in_seq; lia)). rewrite Z in H. cbn in H. apply Qeq_bool_iff in H. apply Qc_is_canon. exact H.
Qed.
Lemma same_numbers : forall (x : list Qc) (z : list Z), map this x = map inject_Z z -> x = map q_ofZ z.
Proof.
  induction x as [|v x IH]; intros [|c z] H; try discriminate H; [reflexivity|]. cbn in H |- * . injection H as H1 H2. rewrite (IH z H2).
  f_equal. apply Qc_is_canon. rewrite H1. symmetry. apply (Qred_correct (inject_Z c)).
Qed.
Example three_solved : M_solve exactly 3 three (map q_ofZ [3; 2; 7]) = Some (map q_ofZ [1; 1; 1]) /\ no_tiny exactly 3 three (map q_ofZ [3; 2; 7]).
Proof.
  split; [|apply tiny_checked; vm_compute; reflexivity].
  assert (E : option_map (map this) (M_solve exactly 3 three (map q_ofZ [3; 2; 7])) = Some (map inject_Z [1; 1; 1])) by (vm_compute; reflexivity).
  destruct (M_solve _ _ _ _) as [x|]; [|discriminate E]. cbn [option_map] in E. f_equal. apply same_numbers. injection E as E. exact E.
Qed.
Example two_inverted : option_map (map (map this)) (M_inv_1 exactly 2 (map (map q_ofZ) [[2; 1]; [1; 1]])) = Some (map (map inject_Z) [[1; -1]; [-1; 2]]).
Proof. vm_compute. reflexivity. Qed.
Example singular_refused : M_solve exactly 2 (map (map q_ofZ) [[1; 2]; [2; 4]]) (map q_ofZ [1; 2]) = None.
Proof. vm_compute. reflexivity. Qed.
