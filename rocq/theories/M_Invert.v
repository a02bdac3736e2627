(** Equations solved for their endogenous variable: api/lec/l_eqs.cpp. *)
From Coq Require Import ZArith Ascii String List Bool.
From Verif Require Import M_Base M_Time M_Names M_Lex M_Compile M_Bytes M_Exec.
Import ListNotations.
Open Scope Z_scope.

(** l_eqs.cpp:64-87 [L_count_endo]: one element. *)
Definition is_endo (x : str) (a : atom) : bool :=
  match a with A_VAR n lag p => (step p =? 0) && (lag =? 0) && str_eqb n x | _ => false end.
Definition count_endo (x : str) (l : list atom) : Z := Z.of_nat (length (filter (is_endo x) l)).

(** The struct SLEC (l_eqs.cpp:39-50) after a split. [lhs]: the endogenous variable is in the left part. *)
Inductive split := Sp_done | Sp_err | Sp_ub | Sp (op : atom) (lm rm : list atom) (lhs : bool).

(** l_eqs.cpp:121-209 [L_split_expr] on the list [v] that contains the endogenous variable; None of [sub_count]
    is the error of L_sub_expr. [fuel] bounds the number of parentheses removed. *)
Fixpoint split_expr (fuel : nat) (x : str) (v : list atom) : split :=
  match fuel, rev v with
  | O, _ => Sp_ub
  | _, [] => Sp_err
  | S n, A_CLOSEP :: _ =>
    match v with
    | [_] => Sp_ub                                       (* erase, then pop_back on an empty vector *)
    | _ => split_expr n x (removelast (tl v))
    end
  | _, A_VAR _ _ _ :: _ => Sp_done
  | _, ((A_OP _ | A_F _ _ | A_VAL _) as op) :: rv =>
    match sub_count rv 0 0 with
    | None => Sp_err
    | Some k =>
      let lm := rev (skipn k rv) in
      let rm := rev (firstn k rv) in
      Sp op lm rm (0 <? count_endo x lm)
    end
  | _, _ => Sp_err
  end.

(** Outcome of an inversion. [names]: L_NAMES. *)
Inductive inv := Inv (expr : list atom) (dup : bool) (names : list str) | Inv_err | Inv_throw | Inv_ub | Inv_unmodelled.

(** l_eqs.cpp:469-589, the switch: the new L_EXPR. [nargs]: of the operator or function. Throw: the exception of
    [L_append_fn] (337-368) for the operator L_EXP. *)
Inductive undone := U_ok (expr : list atom) | U_err | U_throw.
Definition lag_of (nargs : Z) (without with_ : list atom) : list atom :=
  (if nargs =? 2 then without else []) ++ with_ ++ [A_F (TFN Flag) nargs].
Definition undo (op : atom) (lm rm : list atom) (lhs : bool) (e : list atom) : undone :=
  let with_ := if lhs then lm else rm in
  let without := if lhs then rm else lm in
  let fn f := U_ok (e ++ [A_F (FN f) 1]) in
  match op with
  | A_OP Oplus => U_ok (e ++ without ++ [A_OP Ominus])
  | A_OP Otimes => U_ok (e ++ without ++ [A_OP Odivide])
  | A_OP Ominus => U_ok (if lhs then e ++ without ++ [A_OP Oplus] else without ++ e ++ [A_OP Ominus])
  | A_OP Odivide => U_ok (if lhs then e ++ without ++ [A_OP Otimes] else without ++ e ++ [A_OP Odivide])
  | A_OP Oexp =>
    U_ok (if lhs then e ++ [A_F (FN Fln) 1] ++ without ++ [A_OP Odivide; A_F (FN Fexpn) 1]
          else without ++ e ++ [A_F (FN Flog) 2])
  | A_F (FN Fln) _ => fn Fexpn
  | A_F (FN Fexpn) _ => fn Fln
  | A_F (FN Fuplus) _ => U_ok e
  | A_F (FN Fuminus) _ => fn Fuminus
  | A_F (FN Fcos) _ => fn Facos
  | A_F (FN Facos) _ => fn Fcos
  | A_F (FN Fsin) _ => fn Fasin
  | A_F (FN Fasin) _ => fn Fsin
  | A_F (FN Ftan) _ => fn Fatan
  | A_F (FN Fatan) _ => fn Ftan
  | A_F (FN Fsqrt) _ | A_F (FN Flog) _ => U_throw
  | A_F (TFN Fdiff) n => U_ok (e ++ lag_of n without with_ ++ [A_OP Oplus])
  | A_F (TFN Fdln) n => U_ok (e ++ lag_of n without with_ ++ [A_F (FN Fln) 1; A_OP Oplus; A_F (FN Fexpn) 1])
  | A_F (TFN Fgrt) n =>
    U_ok (e ++ [A_LONG 100; A_OP Odivide; A_LONG 1; A_OP Oplus] ++ lag_of n without with_ ++ [A_OP Otimes])
  | A_F (TFN Frapp) n => U_ok (e ++ lag_of n without with_ ++ [A_OP Otimes])
  | _ => U_err
  end.

(** The loop 467-590; the lists get shorter: [fuel] is not reached (L_Invert). *)
Fixpoint invert_loop (fuel : nat) (x : str) (names : list str) (v e : list atom) : inv :=
  match fuel with
  | O => Inv_ub
  | S n =>
    match split_expr (S (length v)) x v with
    | Sp_err => Inv_err
    | Sp_ub => Inv_ub
    | Sp_done => Inv (e ++ [A_EOE]) false names
    | Sp op lm rm lhs =>
      match undo op lm rm lhs e with
      | U_ok e' => invert_loop n x names (if lhs then lm else rm) e'
      | U_err => Inv_err
      | U_throw => Inv_throw
      end
    end
  end.

(** l_eqs.cpp:407-597 [L_invert] after the compilation of the two members. *)
Definition invert_members (x : str) (lm rm : list atom) : inv :=
  let names := names_of (lm ++ rm) in
  let c0 := count_endo x lm in
  let c1 := count_endo x rm in
  if c0 + c1 =? 0 then Inv_err
  else if 2 <=? c0 + c1 then Inv (lm ++ rm ++ [A_OP Ominus; A_EOE]) true names
  else if c0 =? 0 then invert_loop (S (length rm)) x names rm lm
  else invert_loop (S (length lm)) x names lm rm.

(** The first := (l_eqs.cpp:258-266). *)
Fixpoint split_eq (s : str) : option (str * str) :=
  match s with
  | a :: (b :: s'') as s' =>
    if (code a =? 58) && (code b =? 61) then Some ([], s'')
    else match split_eq s' with Some (l, r) => Some (a :: l, r) | None => None end
  | _ => None
  end.

(** l_eqs.cpp:225-283 and 407-414, with the operator stack left by earlier compilations. When a member is rejected
    the vector is empty and its last element is removed. An empty left member: the right member is not compiled. *)
Definition invert (text x : str) (ops : ostack) : inv :=
  match split_eq text with
  | None => Inv_err
  | Some (l, r) =>
    match compile_text l ops with
    | (C_ok lm, ops1) =>
      match removelast lm with
      | [] => invert_members x [] []
      | lm =>
        match compile_text r ops1 with
        | (C_ok rm, _) => invert_members x lm (removelast rm)
        | (C_unmodelled, _) => Inv_unmodelled
        | _ => Inv_ub
        end
      end
    | (C_unmodelled, _) => Inv_unmodelled
    | _ => Inv_ub
    end
  end.

(** The value of the solved equation: k_lec.cpp:303-320 (the constructor of CLEC solves the equation with
    [L_invert], then encodes the result), and the linking and the execution of the expression. *)
Definition inverted_value (A : arith) (E : env A) (real_bytes : str -> list Z) (text x : str) (t : Z) : res (F A) :=
  match invert text x [] with
  | Inv atoms _ names =>
    do code <- encode real_bytes names atoms;
    if link_names E names then
      do code' <- link_sample (s_start (smp E)) code;
      L_exec A E names t code'
    else Throw
  | Inv_err | Inv_throw | Inv_unmodelled => Throw
  | Inv_ub => UB
  end.
