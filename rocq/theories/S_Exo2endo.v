(** Independent vocabulary for the exchanges of endogenous and exogenous variables. *)
From Coq Require Import ZArith List Bool Relations.
From Verif Require Import M_Base M_Names M_Order S_Order.
Import ListNotations.
Open Scope Z_scope.

(** Equation [k] is solved for the variable named [n]. *)
Definition solved_for (vars : list str) (m : model) (k : nat) (n : str) : Prop :=
  exists v, endo_of m k (Z.of_nat v) /\ nth_error vars v = Some n.

(** The variable [n] is in equation [k]. *)
Definition has_var (eqs : list (str * list str)) (k : nat) (n : str) : Prop :=
  exists nk names, nth_error eqs k = Some (nk, names) /\ In n names /\ is_coefficient n = false.

(** Equation [i] reads the endogenous variable of [k] and does not contain [x]. *)
Definition reads_without (eqs : list (str * list str)) (x : str) (i k : nat) : Prop :=
  reads eqs i k /\ ~ has_var eqs i x.

(** [e] is the equation named [n]. *)
Definition named (eqs : list (str * list str)) (e : nat) (n : str) : Prop :=
  exists names, nth_error eqs e = Some (n, names).
