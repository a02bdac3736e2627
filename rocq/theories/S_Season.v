(** Seasonal adjustment, as a user reads it: a level, factors that come back each year, and units. *)
From Coq Require Import ZArith List Bool Reals.
From Verif Require Import M_Base M_Exec M_Real.
Import ListNotations.
Open Scope R_scope.

(** The series of [y] years of [p] periods whose value is the level [c] times the factor of the period. *)
Definition seasonal_series (p y : nat) (c : R) (s : nat -> R) : list R := map (fun f => c * s (f mod p)%nat) (seq 0 (p * y)).
(** The factors of a year have the mean 1. *)
Definition mean_one (p : nat) (s : nat -> R) : Prop := fold_right Rplus 0 (map s (seq 0 p)) = INR p.
(** A month against the mean of its neighbours, in percent. *)
Definition month_ratio (s : nat -> R) (m : nat) : R := 200 * s m / (s ((m + 11) mod 12)%nat + s ((m + 1) mod 12)%nat).
(** The series [l] in other units: [k] for one. *)
Definition scaled (k : R) (l : list R) : list R := map (fun x => if r_num x then k * x else x) l.
(** [y] is [x] in other units, or the same value when [x] is not a number. *)
Definition in_units (k : R) (x y : R) : Prop := y = k * x \/ (r_num x = false /\ y = x).
(** The same variables in other units; the irregular component, an index, is the same. *)
Definition same_in_units (k : R) (r r' : res (list (str * list R))) : Prop :=
  match r, r' with
  | Ok [(n, a)], Ok [(n', a')] => n = n' /\ Forall2 (in_units k) a a'
  | Ok [(n, a); (nc, c); (ni, i)], Ok [(n', a'); (nc', c'); (ni', i')] => n = n' /\ nc = nc' /\ ni = ni' /\ Forall2 (in_units k) a a' /\ Forall2 (in_units k) c c' /\ i = i'
  | UB, UB => True
  | _, _ => False
  end.
