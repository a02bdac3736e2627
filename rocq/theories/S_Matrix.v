(** Exact arithmetics, systems of linear equations, inverses. *)
From Coq Require Import ZArith List Bool Field.
From Verif Require Import M_Base M_Exec M_Matrix.
Import ListNotations.
Open Scope Z_scope.

(** The operations of the arithmetic are those of a field: no rounding, no overflow; the comparisons are those of numbers, and a
    number less than 1/10^25 in absolute value is 0 or not. *)
Record field_like (A : arith) : Prop := {
  fl_field : field_theory (ofZ A 0) (ofZ A 1) (add A) (mul A) (sub A) (neg A) (dvd A) (fun x => dvd A (ofZ A 1) x) Logic.eq;
  fl_eq : forall x y, eq A x y = true <-> x = y;
  fl_zero : ZERO A (ofZ A 0) = true }.

Section Spec.
Context (A : arith).
Notation F := (F A).
Notation "x +. y" := (add A x y) (at level 50, left associativity).
Notation "x *. y" := (mul A x y) (at level 40, left associativity).
Notation "# z" := (ofZ A z) (at level 1).
Fixpoint Sum (n : nat) (f : nat -> F) : F := match n with O => #0 | S n => Sum n f +. f n end.
(** Line i of the matrix times the vector. *)
Definition row_times (n : nat) (a : mat A) (x : list F) (i : nat) : F := Sum n (fun k => get a i k *. nth k x #0).
(** a x = b. *)
Definition solution (n : nat) (a : mat A) (x b : list F) : Prop :=
  length x = n /\ forall i, (i < n)%nat -> row_times n a x i = nth i b #0.
(** a has no inverse: some vector that is not zero is sent to zero. *)
Definition singular (n : nat) (a : mat A) : Prop :=
  exists x, length x = n /\ (forall i, (i < n)%nat -> row_times n a x i = #0) /\ exists k, (k < n)%nat /\ nth k x #0 <> #0.
(** a b = 1. *)
Definition product_one (n : nat) (a b : mat A) : Prop :=
  forall i j, (i < n)%nat -> (j < n)%nat -> Sum n (fun k => get a i k *. get b k j) = if Nat.eqb i j then #1 else #0.
(** During the elimination, the elements of column r that are compared with 0 before step r are 0 or not less than 1/10^25. *)
Definition no_tiny (n : nat) (a : mat A) (b : list F) : Prop :=
  forall r s, (r < n)%nat -> gel_steps A n (seq 0 r) (mkSys a b) = Some s ->
  forall i, (r <= i < n)%nat -> ZERO A (get (s_a s) i r) = true -> get (s_a s) i r = #0.
End Spec.
