(** The choice of the coefficients of an equation (api/estimation/e_step.cpp, api/report/undoc/b_step.cpp).
    The workspaces are the scalars and the rest (equations, variables). The estimation ([Estimation::estimate], k_est.cpp:196) is a
    parameter: a function of the workspaces; when it fails, its result is not looked at. So is the evaluation of the condition
    ([C_evallec]). Simplifications: names are keys (lower case); messages are left out; one equation is given. *)
From Coq Require Import ZArith Ascii String List Bool Floats.SpecFloat.
From Verif Require Import M_Base M_Time M_Names M_Lex M_Compile M_Bytes M_Exec M_Double M_Decimal M_Kdb M_Ascii.
Import ListNotations.
Open Scope Z_scope.

Definition scalars := smap scalar.
Definition d0 : dbl := S754_zero false.
Definition d1 : dbl := d_ofZ 1.
(** e_step.cpp:44-56 [E_GetScls]; [objs]: the names of the compiled equation. A scalar that does not exist: [get_obj_ptr] throws
    (kdb.h:1097-1115). *)
Fixpoint E_GetScls (objs : list str) (db : scalars) : res (list str) :=
  match objs with
  | [] => Ok []
  | n :: l =>
    if is_coefficient n then
      match M_Kdb.find n db with
      | None => Throw
      | Some s => do r <- E_GetScls l db; Ok (if SFeqb (relax s) d0 then r else n :: r)
      end
    else E_GetScls l db
  end.
(** e_step.cpp:66-79 [E_SetScl]. *)
Definition E_SetScl (on : bool) (name : str) (db : scalars) : res scalars :=
  match M_Kdb.find name db with
  | None => Throw
  | Some s => Ok (M_Kdb.put name (if on then mkScl d09 d1 (std s) else mkScl d0 d0 (std s)) db)
  end.
(** e_step.cpp:142-158: [j] is the rank of the bit of cscl, [used] the bytes used in buf, [nscl] the number of coefficients to
    estimate; buf has 512 bytes, and cscl is an int. *)
Fixpoint set_all (i j : Z) (names : list str) (db : scalars) (used nscl : Z) : res (scalars * Z) :=
  match names with
  | [] => Ok (db, nscl)
  | n :: l =>
    if 30 <=? j then UB
    else if Z.testbit i j then
      do db1 <- E_SetScl true n db;
      let used1 := used + Z.of_nat (length n) + 1 in
      if 511 <? used1 then UB else set_all i (j + 1) l db1 used1 (nscl + 1)
    else do db1 <- E_SetScl false n db; set_all i (j + 1) l db1 used nscl
  end.

Section Step.
Context {X : Type}.
Variable est : scalars * X -> scalars * X.
Variable cond : scalars * X -> dbl.
Variable test : str.
(** e_step.cpp:132-185 [estimate_step_wise_1]. *)
Definition step_1 (i : Z) (names : list str) (w : scalars * X) : res (dbl * (scalars * X)) :=
  do r <- set_all i 0 names (fst w) 0 0;
  let '(db, nscl) := r in
  if 1 <? nscl then
    let w1 := est (db, snd w) in
    match M_Kdb.find (S2L "e0_" ++ test) (fst w1) with None => Throw | Some s => Ok (value s, w1) end
  else Ok (d0, (db, snd w)).
(** e_step.cpp:276-287. *)
Fixpoint search (is : list Z) (names : list str) (last_i : Z) (last : dbl) (w : scalars * X) : res (Z * (scalars * X)) :=
  match is with
  | [] => Ok (last_i, w)
  | i :: is' =>
    do r <- step_1 i names w;
    let '(x, w1) := r in
    if SFltb last x && negb (SFeqb (cond w1) d0) && negb (SFeqb x d0)
    then search is' names i x w1
    else search is' names last_i last w1
  end.
Definition combinations (n : nat) : list Z := map Z.of_nat (seq 1 (2 ^ n - 1)).
(** e_step.cpp:263-294 [estimate_step_wise], from the compiled equation; (int) pow(2.0, n) is undefined above 30. *)
Definition step_wise (objs : list str) (w : scalars * X) : res (dbl * (scalars * X)) :=
  do names <- E_GetScls objs (fst w);
  if (30 <? length names)%nat then UB
  else
    do r <- search (combinations (length names)) names 0 (d_ofZ (-999999999999)) w;
    let '(last_i, w1) := r in step_1 last_i names w1.

(** b_step.cpp:32-66 [check_scl_var]: [is_var] tells which variables exist. *)
Fixpoint check_scl_var (is_var : str -> bool) (objs : list str) (db : scalars) : bool * scalars :=
  match objs with
  | [] => (true, db)
  | n :: l =>
    if is_coefficient n then
      check_scl_var is_var l (match M_Kdb.find n db with Some _ => db | None => M_Kdb.put n (mkScl d09 d1 d_na) db end)
    else if is_var n then check_scl_var is_var l db else (false, db)
  end.
(** b_step.cpp:78-137 [B_EqsStepWise], from the sample and the equation; the result is the code that is returned. *)
Definition B_EqsStepWise (is_var : str -> bool) (objs : list str) (w : scalars * X) : res (Z * (scalars * X)) :=
  match d_trunc (cond w) with
  | None => UB
  | Some z =>
    if z =? -1 then Ok (1, w)
    else if negb (str_eqb test (S2L "r2") || str_eqb test (S2L "fstat")) then Ok (1, w)
    else let '(b, db) := check_scl_var is_var objs (fst w) in
      if b then do r <- step_wise objs (db, snd w); Ok (0, snd r) else Ok (1, (db, snd w))
  end.
End Step.
