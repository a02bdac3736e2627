(** Specification: what the four lists of a comparison are. *)
From Coq Require Import ZArith Ascii String List Bool Lia Sorting.Sorted Reals.
From Verif Require Import M_Base M_Names M_Kdb S_Names.
Import ListNotations.

(** A database: names in order, written as the type of its objects requires. *)
Definition database {T} (ty : otype) (m : smap T) : Prop :=
  StronglySorted (fun a b => str_ltb a b = true) (keys m) /\ forall n, In n (keys m) -> accepted ty n.
(** Comments: two names that differ in case only are not in use. *)
Definition one_case {T} (ty : otype) (k1 k2 : smap T) : Prop :=
  ty = COMMENTS -> forall a b, In a (keys k1 ++ keys k2) -> In b (keys k1 ++ keys k2) -> to_lower a = to_lower b -> a = b.
(** The names in order, each once, for which [P] holds. *)
Definition exactly_those (P : str -> Prop) (l : list str) : Prop :=
  StronglySorted (fun a b => str_ltb a b = true) l /\ forall n, In n l <-> P n.
(** Two values that a comparison takes for equal: the second one near the first one, or near 0. *)
Definition near (eps a b : R) : Prop := (Rabs (a - b) < eps * Rabs a \/ a = 0 /\ Rabs b < eps)%R.
