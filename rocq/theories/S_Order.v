(** Independent vocabulary for the order of the equations. *)
From Coq Require Import ZArith List Bool Relations.
From Verif Require Import M_Base M_Names M_Order.
Import ListNotations.
Open Scope Z_scope.

(** [v] is the endogenous variable of equation [k]. *)
Definition endo_of (m : model) (k : nat) (v : Z) : Prop := nth_error (posxk m) k = Some v.
(** The variable [v] occurs in equation [i]. *)
Definition occurs (m : model) (i : nat) (v : Z) : Prop :=
  exists o name, nth_error (objs m) i = Some o /\ In (name, v) o /\ is_coefficient name = false.
(** Equation [i] uses the endogenous variable of another equation [k]. *)
Definition uses (m : model) (i k : nat) : Prop := i <> k /\ exists v, endo_of m k v /\ occurs m i v.
(** No simultaneity: no chain of uses comes back to its start. *)
Definition recursive (m : model) : Prop := forall i, ~ clos_trans nat (uses m) i i.
(** A coefficient occurs in equation [i]. *)
Definition has_coefficient (m : model) (i : nat) : Prop :=
  exists o name v, nth_error (objs m) i = Some o /\ In (name, v) o /\ is_coefficient name = true.

(** The tables are consistent: one endogenous variable per equation, found back by the reverse table. *)
Record linked (m : model) : Prop := {
  l_len : length (posxk m) = length (objs m);
  l_endo : forall k v, endo_of m k v -> 0 <= v /\ nth_error (posrev m) (Z.to_nat v) = Some (Z.of_nat k);
  l_rev : forall v e, nth_error (posrev m) v = Some e -> -1 <= e < len (objs m);
  l_occ : forall i v, occurs m i v -> -1 <= v < len (posrev m)
}.

(** The reverse table holds nothing else: a variable with an equation is the endogenous variable of it. *)
Definition exact_tables (m : model) : Prop :=
  forall v e, nth_error (posrev m) v = Some e -> 0 <= e -> endo_of m (Z.to_nat e) (Z.of_nat v).

(** All the equations of a model. *)
Definition equations (m : model) : list Z := map Z.of_nat (seq 0 (length (objs m))).

(** [e] is executed at rank [r]. *)
Definition at_rank (o : ordering) (r e : nat) : Prop := nth_error (o_order o) r = Some (Z.of_nat e).

(** * The same, by names *)

(** Equation [i] of the list reads the endogenous variable (the name) of another equation [k]. *)
Definition reads (eqs : list (str * list str)) (i k : nat) : Prop :=
  i <> k /\ exists ni names nk nsk, nth_error eqs i = Some (ni, names) /\ nth_error eqs k = Some (nk, nsk) /\
    In nk names /\ is_coefficient nk = false.
Definition no_simultaneity (eqs : list (str * list str)) : Prop := forall i, ~ clos_trans nat (reads eqs) i i.
Definition without_coefficients (eqs : list (str * list str)) : Prop :=
  forall n names w, In (n, names) eqs -> In w names -> is_coefficient w = false.

(** The tables built for these equations by a simulation, or by the computation of the blocks only. *)
Definition model_of (eqs : list (str * list str)) (m : model) : Prop :=
  (exists vars scl, NoDup vars /\ link_model vars scl eqs = Ok (Some m)) \/ m = link_endos eqs.
