(** Exact ordered arithmetics; linear equations, residuals and normal equations. *)
From Coq Require Import ZArith List Bool.
From Verif Require Import M_Base M_Exec M_Matrix M_Estim S_Matrix.
Import ListNotations.
Open Scope Z_scope.

(** A field with its order. *)
Record ordered_like (A : arith) : Prop := {
  ol_field : field_like A;
  ol_ofZ : forall z, ofZ A z = ofZ A 0 -> z = 0;
  ol_one : lt A (ofZ A 0) (ofZ A 1) = true;
  ol_sub : forall x y, lt A x y = lt A (sub A x y) (ofZ A 0);
  ol_irrefl : lt A (ofZ A 0) (ofZ A 0) = false;
  ol_square : forall x, lt A (mul A x x) (ofZ A 0) = false;
  ol_add : forall x y, lt A x (ofZ A 0) = false -> lt A y (ofZ A 0) = false -> lt A (add A x y) (ofZ A 0) = false;
  ol_anti : forall x, lt A x (ofZ A 0) = false -> lt A (neg A x) (ofZ A 0) = false -> x = ofZ A 0;
  ol_sqrt : sqrt A (ofZ A 0) = ofZ A 0;
  ol_abs : abs A (ofZ A 0) = ofZ A 0;
  ol_pos : forall x, x <> ofZ A 0 -> lt A (ofZ A 0) (abs A x) = true;
  ol_tiny : tiny A (ofZ A 0) = true;
  ol_tenth : tiny A (tenth A) = false }.

Section Spec.
Context (A : arith).
Notation F := (F A).
Notation "x +. y" := (add A x y) (at level 50, left associativity).
Notation "x -. y" := (sub A x y) (at level 50, left associativity).
Notation "x *. y" := (mul A x y) (at level 40, left associativity).
Notation "# z" := (ofZ A z) (at level 1).
Notation Sum := (Sum A).
Context (p : problem A).

(** The right hand sides are linear in the coefficients: X equation coefficient period, 0 for a coefficient that is not in the equation. *)
Definition linear (X : nat -> nat -> nat -> F) (base : nat -> nat -> F) : Prop :=
  (forall i c t, (i < NEQ p)%nat -> (t < T p)%nat -> rhs p i c t = base i t +. Sum (length (relax p)) (fun k => X i k t *. nth k c #0))
  /\ forall i k t, in_eq p k i = false -> X i k t = #0.
(** Every coefficient is fixed or estimated with full steps. *)
Definition full_steps : Prop := forall r, In r (relax p) -> r = #0 \/ r = #1.
Definition is_estimated (k : nat) : Prop := (k < length (relax p))%nat /\ nth k (relax p) #0 <> #0.
(** The same values for the coefficients that are not estimated. *)
Definition same_fixed (c c' : list F) : Prop :=
  length c' = length (relax p) /\ forall k, (k < length (relax p))%nat -> ~ is_estimated k -> nth k c' #0 = nth k c #0.
Definition residual (c : list F) (i t : nat) : F := get (lhs p) i t -. rhs p i c t.
Definition squares (c : list F) : F := Sum (NEQ p) (fun i => Sum (T p) (fun t => residual c i t *. residual c i t)).
(** With the instruments: multiplied by the matrix D. *)
Definition instrumented (f : nat -> F) (t : nat) : F := if Nat.ltb 0 (ninstr p) then Sum (T p) (fun s => get (D p) t s *. f s) else f t.
Definition identity (i j : nat) : F := if Nat.eqb i j then #1 else #0.
(** The normal equations, with weights between the equations. *)
Definition normal (X : nat -> nat -> nat -> F) (W : nat -> nat -> F) (c : list F) : Prop :=
  forall k, is_estimated k ->
  Sum (NEQ p) (fun i => Sum (T p) (fun t => X i k t *. instrumented (fun s => Sum (NEQ p) (fun j => W i j *. residual c j s)) t)) = #0.
(** The matrix of the normal equations: X'WX. *)
Definition moments (X : nat -> nat -> nat -> F) (W : nat -> nat -> F) : mat A :=
  let e := filter (fun k => negb (eq A (nth k (relax p) #0) #0)) (seq 0 (length (relax p))) in
  build A (length e) (length e) (fun a b =>
    Sum (NEQ p) (fun i => Sum (T p) (fun t => X i (nth a e 0%nat) t *. instrumented (fun s => Sum (NEQ p) (fun j => W i j *. X j (nth b e 0%nat) s)) t))).
Definition no_zero_coef (c : list F) : Prop := forall k, is_estimated k -> tiny A (nth k c #0) = false.
(** No number that is compared with 0 is close to 0: in the elimination, and the coefficients that solve the normal equations. *)
Definition regular (X : nat -> nat -> nat -> F) (W : nat -> nat -> F) (c0 : list F) : Prop :=
  (forall b, no_tiny A (length (moments X W)) (moments X W) b)
  /\ forall c, same_fixed c0 c -> normal X W c -> no_zero_coef c.
(** The covariances of the residuals. *)
Definition covariances (c : list F) (v : mat A) : Prop :=
  forall i j, (i < NEQ p)%nat -> (j < NEQ p)%nat -> get v i j = dvd A (Sum (T p) (fun t => residual c i t *. residual c j t)) #(Z.of_nat (T p)).
(** The equations can be calculated with these coefficients, and with each estimated coefficient increased by 1/10000: the values are
    numbers, less than the largest float. *)
Definition calculable (c : list F) : Prop :=
  forall i t, (i < NEQ p)%nat -> (t < T p)%nat ->
  num A (rhs p i c t) = true
  /\ forall k, is_estimated k ->
     let x := rhs p i (upd A k (nth k c #0 *. (#1 +. step_h A)) c) t in num A x = true /\ lt A x (MAXFLOAT A) = true.
(** The columns of the estimated coefficients are linearly independent. *)
Definition independent (X : nat -> nat -> nat -> F) : Prop :=
  forall d : nat -> F, (exists k, is_estimated k /\ d k <> #0) ->
  exists i t, (i < NEQ p)%nat /\ (t < T p)%nat
    /\ Sum (length (relax p)) (fun k => if eq A (nth k (relax p) #0) #0 then #0 else X i k t *. d k) <> #0.
End Spec.
