(** IEEE 754 binary64 numbers (Coq.Floats.SpecFloat, defined in Gallina) as an instance of [arith], for
    concrete executions. Division, addition, comparison, square root, conversions and floor are exact;
    exp, log, pow (except for integer exponents), trigonometry and the random functions are dummies. *)
From Coq Require Import ZArith List Bool Floats.SpecFloat.
From Verif Require Import M_Base M_Time M_Names M_Lex M_Compile M_Bytes M_Exec.
Import ListNotations.
Open Scope Z_scope.

Notation prec := 53%Z. Notation emax := 1024%Z.
Definition dbl : Type := spec_float.
Definition d_ofZ (z : Z) : dbl := binary_normalize prec emax z 0 false.
Definition d_add : dbl -> dbl -> dbl := SFadd prec emax.
Definition d_sub : dbl -> dbl -> dbl := SFsub prec emax.
Definition d_mul : dbl -> dbl -> dbl := SFmul prec emax.
Definition d_div : dbl -> dbl -> dbl := SFdiv prec emax.
Definition d_pow10 (n : Z) : Z := 10 ^ n.
(** n / 10^k *)
Definition d_dec (n k : Z) : dbl := d_div (d_ofZ n) (d_ofZ (d_pow10 k)).
(** (int) x: towards zero, undefined when it does not fit *)
Definition d_int (x : dbl) : option Z :=
  match x with
  | S754_zero _ => Some 0
  | S754_finite s m e =>
    let a := if 0 <=? e then Z.pos m * 2 ^ e else Z.pos m / 2 ^ (- e) in
    Some (if s then - a else a)
  | _ => None
  end.
Definition d_trunc (x : dbl) : option Z :=
  match d_int x with
  | Some z => if (-2147483648 <=? z) && (z <=? 2147483647) then Some z else None
  | None => None
  end.
Definition d_floor (x : dbl) : dbl :=
  match d_int x with
  | Some z => if SFltb x (d_ofZ z) then d_ofZ (z - 1) else d_ofZ z
  | None => x
  end.
Fixpoint d_powpos (x : dbl) (n : nat) : dbl := match n with O => d_ofZ 1 | S n' => d_mul x (d_powpos x n') end.
Definition d_pow (x y : dbl) : dbl :=
  match d_trunc y with
  | Some z => if (0 <=? z) && (z <=? 64) then d_powpos x (Z.to_nat z)
              else if (-64 <=? z) && (z <? 0) then d_div (d_ofZ 1) (d_powpos x (Z.to_nat (- z))) else S754_nan
  | None => S754_nan
  end.
(** The bytes of a double, least significant first. *)
Definition d_real (b : list Z) : dbl :=
  let z := un_le b in
  let m := z mod 2 ^ 52 in
  let e := (z / 2 ^ 52) mod 2048 in
  let s := 2 ^ 63 <=? z in
  if e =? 2047 then (if m =? 0 then S754_infinity s else S754_nan)
  else if e =? 0 then (match m with Z.pos p => S754_finite s p (-1074) | _ => S754_zero s end)
  else match m + 2 ^ 52 with Z.pos p => S754_finite s p (e - 1075) | _ => S754_nan end.

Definition d_na : dbl := d_ofZ (-2 * d_pow10 37).
Definition d_num (x : dbl) : bool := SFleb (d_ofZ (- d_pow10 37)) x.
Definition double : arith := {|
  F := dbl; na := d_na; num := d_num; num_na := eq_refl;
  add := d_add; sub := d_sub; mul := d_mul; dvd := d_div; neg := SFopp;
  lt := SFltb; eq := SFeqb; is_nan := fun x => match x with S754_nan => true | _ => false end;
  ofZ := d_ofZ; real := d_real; trunc := d_trunc;
  half := d_dec 5 1; e8 := d_dec 1 8; e15 := d_dec 1 15; e30 := d_dec 1 30;
  pi := S754_finite false 7074237752028440 (-51); euler := S754_finite false 6121026514868073 (-51); euro := d_dec 403399 4;
  max_exp := d_ofZ 1024; min_exp := d_ofZ (-1021);
  max_double := S754_finite false 9007199254740991 971; min_double := S754_finite false 4503599627370496 (-1074);
  abs := SFabs; floor := d_floor; log := fun _ => S754_nan; exp := fun _ => S754_nan;
  sqrt := SFsqrt prec emax; pow := d_pow;
  lib1 := fun _ x => x; rnd := fun _ x => x; grandom := fun m _ => m;
  hp := fun _ _ _ _ => None
|}.

(** An environment given by lists. *)
Fixpoint lookup {X} (n : str) (l : list (str * X)) : option X :=
  match l with [] => None | (k, x) :: l' => if str_eqb n k then Some x else lookup n l' end.
(** [None] stands for NA. *)
Definition d_val (x : option Z) : dbl := match x with Some z => d_ofZ z | None => d_na end.
Definition d_env (start : period) (nb : Z) (vars : list (str * list (option Z))) (scl : list (str * option Z)) : env double :=
  Build_env double
    (fun n => option_map (fun l (i : Z) => d_val (nth (Z.to_nat i) l None)) (lookup n vars))
    (fun n => option_map d_val (lookup n scl))
    (mkS start start nb).
