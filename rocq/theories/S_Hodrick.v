(** The trend of a series: close to the series and smooth. *)
From Coq Require Import ZArith List Bool Reals.
Import ListNotations.
Open Scope R_scope.

Fixpoint sum_to (n : nat) (f : nat -> R) : R := match n with O => 0 | S n => sum_to n f + f n end.
(** The second differences, the sum of their squares, and the sum of the squares of the deviations. *)
Definition second (g : nat -> R) (k : nat) : R := g (k + 2)%nat - 2 * g (k + 1)%nat + g k.
Definition roughness (n : nat) (g : nat -> R) : R := sum_to (n - 2) (fun k => second g k * second g k).
Definition distance (n : nat) (y g : nat -> R) : R := sum_to n (fun k => (y k - g k) * (y k - g k)).
Definition at_ (l : list R) (k : nat) : R := nth k l 0.
Definition criterion (lambda : R) (y g : list R) : R :=
  distance (length y) (at_ y) (at_ g) + lambda * roughness (length y) (at_ g).
(** The trend is the only minimum. *)
Definition trend (lambda : R) (y g : list R) : Prop :=
  length g = length y /\ forall g', length g' = length y -> g' <> g -> criterion lambda y g < criterion lambda y g'.
(** A combination of two series. *)
Definition combined (a b : R) (y z : list R) : list R := map (fun k => a * at_ y k + b * at_ z k) (seq 0 (length y)).
