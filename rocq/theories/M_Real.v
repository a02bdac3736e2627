(** Exact arithmetic on the real numbers of the library: every operation and function without rounding or overflow.
    The constants are those of api/constants.h:52-60, 123 (IODE_NAN) and 228 (IODE_IS_A_NUMBER). The functions without
    a meaning here (random numbers, filters, the gamma function, texts of real constants) are constant. *)
From Coq Require Import ZArith List Bool Reals Lra Lia.
From Verif Require Import M_Base M_Lex M_Exec S_Invert.
Import ListNotations.
Open Scope R_scope.

Definition r_na : R := -2 * 10 ^ 37.
Definition r_num (x : R) : bool := if Rle_dec (-1 * 10 ^ 37) x then true else false.
Lemma r_num_na : r_num r_na = false.
Proof.
  unfold r_num, r_na. destruct (Rle_dec _ _) as [H|H]; [|reflexivity]. exfalso.
  assert (0 < 10 ^ 37) by (apply pow_lt; lra). lra.
Qed.
Definition r_lt (x y : R) : bool := if Rlt_dec x y then true else false.
Definition r_eq (x y : R) : bool := if Req_EM_T x y then true else false.
(** Conversion to an integer: towards zero. *)
Definition r_trunc (x : R) : option Z :=
  let n := if Rlt_dec x 0 then (- Int_part (- x))%Z else Int_part x in
  if ((-2147483648 <=? n) && (n <=? 2147483647))%Z then Some n else None.
Definition r_lib1 (f : fnr) (x : R) : R :=
  match f with
  | Fsin => sin x | Fcos => cos x | Ftan => tan x
  | Fasin => if Rle_dec (-1) x then if Rle_dec x 1 then asin x else r_na else r_na
  | Facos => if Rle_dec (-1) x then if Rle_dec x 1 then acos x else r_na else r_na
  | Fatan => atan x | Fsinh => sinh x | Fcosh => cosh x | Ftanh => tanh x
  | _ => 0
  end.
(** The power: of a negative number, to the integer part of the exponent (used with integers, M_Exec [L_exp]). *)
Definition r_pow (a b : R) : R :=
  if Rlt_dec 0 a then Rpower a b
  else if Req_EM_T a 0 then if Req_EM_T b 0 then 1 else 0
  else powerRZ a (Int_part b).
Definition reals : arith := {|
  F := R; na := r_na; num := r_num; num_na := r_num_na;
  add := Rplus; sub := Rminus; mul := Rmult; dvd := Rdiv; neg := Ropp;
  lt := r_lt; eq := r_eq; is_nan := fun _ => false;
  ofZ := IZR; real := fun _ => 0; trunc := r_trunc;
  half := / 2; e8 := / 10 ^ 8; e15 := / 10 ^ 15; e30 := / 10 ^ 30; pi := PI; euler := Rtrigo_def.exp 1; euro := 403399 / 10000;
  max_exp := 1024; min_exp := -1021; max_double := (2 ^ 53 - 1) * 2 ^ 971; min_double := / 2 ^ 1022;
  abs := Rabs; floor := fun x => IZR (Int_part x); log := ln; exp := Rtrigo_def.exp; sqrt := R_sqrt.sqrt; pow := r_pow;
  lib1 := r_lib1; rnd := fun _ _ => 0; grandom := fun _ _ => 0; hp := fun _ _ _ _ => None |}.

Lemma r_lt_false x y : r_lt x y = false -> y <= x.
Proof. unfold r_lt. destruct (Rlt_dec x y); [discriminate|lra]. Qed.
Lemma r_eq_false x y : r_eq x y = false -> x <> y.
Proof. unfold r_eq. destruct (Req_EM_T x y); [discriminate|auto]. Qed.
Lemma r_le_false x : le_f reals x 0 = false -> 0 < x.
Proof.
  unfold le_f. cbn. intros H. apply orb_false_iff in H. destruct H as [H1 H2]. apply r_lt_false in H1. apply r_eq_false in H2.
  lra.
Qed.
Lemma exact_reals : exact reals.
Proof.
  constructor; cbn; intros; try lra.
  - apply r_eq_false in H. field. exact H.
  - apply r_eq_false in H. field. exact H.
  - apply r_eq_false in H. apply r_eq_false in H0. assert (a <> 0) by (intros ->; apply H0; unfold Rdiv; apply Rmult_0_l).
    field. split; assumption.
  - apply ln_exp.
  - apply exp_ln, r_le_false, H.
  - apply exp_plus.
  - unfold r_lt. pose proof (exp_pos a). destruct (Rlt_dec _ _); [exfalso; lra|reflexivity].
  - unfold r_pow. pose proof (exp_pos a). destruct (Rlt_dec _ _); [|exfalso; lra]. unfold Rpower. rewrite ln_exp, Rmult_comm. reflexivity.
  - destruct (Rle_dec (-1) a); [|rewrite r_num_na in H; discriminate]. destruct (Rle_dec a 1); [|rewrite r_num_na in H; discriminate].
    apply cos_acos. lra.
  - destruct (Rle_dec (-1) a); [|rewrite r_num_na in H; discriminate]. destruct (Rle_dec a 1); [|rewrite r_num_na in H; discriminate].
    apply sin_asin. lra.
  - apply tan_atan.
Qed.
