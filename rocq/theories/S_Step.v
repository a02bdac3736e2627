(** Specification of the choice of coefficients: combinations are lists of booleans, one for each coefficient of the equation that is
    free at the start. *)
From Coq Require Import ZArith Ascii String List Bool Floats.SpecFloat.
From Verif Require Import M_Base M_Names M_Lex M_Double M_Decimal M_Kdb M_Ascii M_Step.
Import ListNotations.
Open Scope Z_scope.

(** The coefficients chosen start from 0.9 and are free (relaxation 1); the others are 0 and fixed. Nothing else changes. *)
Definition prepared (names : list str) (c : list bool) (db db' : scalars) : Prop :=
  forall k, M_Kdb.find k db' =
    match M_Kdb.find k db with
    | None => None
    | Some s =>
      match List.find (fun x => str_eqb (fst x) k) (combine names c) with
      | None => Some s
      | Some (_, true) => Some (mkScl d09 d1 (std s))
      | Some (_, false) => Some (mkScl d0 d0 (std s))
      end
    end.
Definition chosen (c : list bool) : nat := length (filter (fun b => b) c).
(** What a user counts on: estimating a combination gives the same test and the same condition each time. [Inv] holds in the states that
    are met. *)
Definition repeatable {X} (est : scalars * X -> scalars * X) (cond : scalars * X -> dbl) (test : str) (names : list str)
  (Inv : scalars * X -> Prop) (score : list bool -> dbl) (ok : list bool -> bool) : Prop :=
  (forall w, Inv w -> forall n, In n names -> M_Kdb.find n (fst w) <> None) /\
  forall w c db', Inv w -> length c = length names -> prepared names c (fst w) db' ->
    Inv (db', snd w) /\
    ((2 <= chosen c)%nat -> let w1 := est (db', snd w) in
      Inv w1 /\ (exists s, M_Kdb.find (S2L "e0_" ++ test) (fst w1) = Some s /\ value s = score c) /\ negb (SFeqb (cond w1) d0) = ok c).
(** A combination that can be chosen: two coefficients or more, the condition holds, the test is neither 0 nor below -999999999999. *)
Definition eligible (names : list str) (score : list bool -> dbl) (ok : list bool -> bool) (c : list bool) : Prop :=
  length c = length names /\ (2 <= chosen c)%nat /\ ok c = true /\ SFeqb (score c) d0 = false /\ SFltb (d_ofZ (-999999999999)) (score c) = true.
(** The names fit in the buffer of the messages. *)
Definition short_names (names : list str) : Prop := (length names <= 30)%nat /\ Z.of_nat (length (concat names)) + Z.of_nat (length names) <= 511.
(** The coefficients of an equation that are free: their relaxation is not 0. *)
Definition is_free (db : scalars) (n : str) : bool := is_coefficient n && match M_Kdb.find n db with Some s => negb (SFeqb (relax s) d0) | None => false end.
Definition free_coefs (objs : list str) (db : scalars) : list str := filter (is_free db) objs.
Definition all_exist (objs : list str) (db : scalars) : Prop := forall n, In n objs -> is_coefficient n = true -> M_Kdb.find n db <> None.
