(** Specification for property C104: what the diagnostics of a simulation say. *)
From Coq Require Import ZArith List Bool.
From Verif Require Import M_Base M_Exec M_Order M_Simul M_SimDiag.
Import ListNotations.
Open Scope Z_scope.

Section Spec.
Variable A : arith.
Variable P : params A.
(** No pass at position [p]. *)
Definition untouched (d : diag A) (p : Z) : Prop := d_iters d p = 0 /\ d_norms d p = ofZ A 0.
(** The period at [p] converged: at least a pass, at most the maximum, and the norm is not above the threshold. *)
Definition converged_at (d : diag A) (p : Z) : Prop :=
  1 <= d_iters d p <= Z.of_nat (maxit P) /\ (lt A (d_norms d p) (eps P) = true \/ eq A (d_norms d p) (eps P) = true).
(** The iterations at [p] stopped for the reason [why], which is not the convergence. *)
Definition stopped_at (d : diag A) (p : Z) (why : stop) : Prop :=
  match why with
  | CONVERGED => False
  | TOO_LONG =>
    d_iters d p = Z.of_nat (maxit P) /\
    (0 < Z.of_nat (maxit P) -> lt A (d_norms d p) (eps P) = false /\ eq A (d_norms d p) (eps P) = false) /\
    (Z.of_nat (maxit P) = 0 -> d_norms d p = ofZ A 0)
  | BECOMES_NA | INTERRUPTED => 1 <= d_iters d p <= Z.of_nat (maxit P)
  end.
(** [s'] and [d] hold, at [p], the results of one and the same simulation of this period, which stopped for [why]. *)
Definition explained (Q : eqns A) (m : model) (o : ordering) (keys : Z -> nat -> bool) (s' : values A) (d : diag A) (p : Z) (why : stop) : Prop :=
  exists s xk norm, let r := simulate_period A Q P m o (keys p) p s xk norm in
    r_stop r = why /\ (forall v, s' v p = r_s r v p) /\ d_iters d p = Z.of_nat (r_iters r) /\ (d_iters d p <> 0 -> d_norms d p = r_norm r).
End Spec.
