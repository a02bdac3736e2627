(** Exact arithmetic: rational numbers with IODE's conventions for missing values (api/constants.h:221-229),
    as an instance of [arith]; for the statements that hold "in exact arithmetic". Functions other than
    the four operations and the comparisons are dummies. *)
From Coq Require Import ZArith List Bool QArith Qcanon.
From Verif Require Import M_Base M_Time M_Names M_Lex M_Compile M_Bytes M_Exec.
Import ListNotations.
Open Scope Z_scope.

Definition q_ofZ (z : Z) : Qc := Q2Qc (inject_Z z).
Definition q_lt (x y : Qc) : bool := match Qccompare x y with Lt => true | _ => false end.
(** IODE_NAN, IODE_IS_A_NUMBER, IODE_IS_0. *)
Definition q_na : Qc := q_ofZ (-2 * 10 ^ 37).
Definition q_num (x : Qc) : bool := negb (q_lt x (q_ofZ (- 10 ^ 37))).
Definition q_tiny : Qc := Qcdiv (q_ofZ 1) (q_ofZ (10 ^ 36)).
Definition exactly : arith := {|
  F := Qc; na := q_na; num := q_num; num_na := eq_refl;
  add := Qcplus; sub := Qcminus; mul := Qcmult; dvd := Qcdiv; neg := Qcopp;
  lt := q_lt; eq := fun x y => if Qc_eq_dec x y then true else false; is_nan := fun _ => false;
  ofZ := q_ofZ; real := fun _ => q_ofZ 0; trunc := fun _ => None;
  half := Qcdiv (q_ofZ 1) (q_ofZ 2); e8 := q_ofZ 0; e15 := q_ofZ 0; e30 := q_ofZ 0; pi := q_ofZ 0; euler := q_ofZ 0; euro := q_ofZ 0;
  max_exp := q_ofZ 0; min_exp := q_ofZ 0; max_double := q_ofZ 0; min_double := q_ofZ 0;
  abs := fun x => if q_lt x (q_ofZ 0) then Qcopp x else x; floor := fun x => x; log := fun x => x; exp := fun x => x;
  sqrt := fun x => x; pow := fun x _ => x;
  lib1 := fun _ x => x; rnd := fun _ x => x; grandom := fun m _ => m;
  hp := fun _ _ _ _ => None
|}.
