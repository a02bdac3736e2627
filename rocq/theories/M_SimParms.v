(** The parameters of a simulation and the report command that sets them: api/report/commands/b_model.cpp:132-165
    [B_ModelSimulateParms], api/b_args.cpp:209-217 [B_argpos], and the report functions that read them
    (api/report/engine/b_rep_fns.cpp:1515-1605).

    Simplifications: the conversion of a real (atof, C library) is a parameter; a number beyond 32 bits given to atoi is
    undefined; the words hold ASCII characters (the code subtracts from a signed character); messages are left out. *)
From Coq Require Import ZArith Ascii String List Bool.
From Verif Require Import M_Base M_Report M_Vars M_Order.
Import ListNotations.
Open Scope Z_scope.

(** k_sim_main.cpp:96-105, simulation.h:45-62: KSIM_EPS, KSIM_RELAX, KSIM_MAXIT, KSIM_SORT, KSIM_START, KSIM_DEBUG, KSIM_PASSES,
    KSIM_NEWTON_DEBUG. *)
Record sparms (R : Type) := mkSP { p_eps : R; p_relax : R; p_maxit : Z; p_sort : Z; p_start : Z; p_debug : Z; p_passes : Z; p_newton : Z }.
Arguments mkSP {R}. Arguments p_eps {R}. Arguments p_relax {R}. Arguments p_maxit {R}. Arguments p_sort {R}. Arguments p_start {R}.
Arguments p_debug {R}. Arguments p_passes {R}. Arguments p_newton {R}.

(** utils.h:300-310 [get_pos_in_char_array]. *)
Fixpoint pos_in (s : str) (c : ascii) (i : Z) : Z :=
  match s with [] => -1 | x :: s' => if Ascii.eqb x c then i else pos_in s' c (i + 1) end.
(** b_args.cpp:209-217: 0 when the character is not found. *)
Definition argpos (s : str) (c : ascii) : Z := Z.max 0 (pos_in s (upper_char c) 0).
(** The first character of a word; the words of SCR_vtoms are not empty. *)
Definition first (w : str) : ascii := match w with c :: _ => c | [] => chr 0 end.

Section Parms.
Variable R : Type.
Variable atof : str -> R.
Definition int_of (w : str) : res Z := match atoi w with Some z => Ok z | None => UB end.
(** b_model.cpp:132-165: the return code and the parameters. *)
Definition ModelSimulateParms (arg : str) (p : sparms R) : res (Z * sparms R) :=
  match vtoms B_SEPS arg with
  | a0 :: a1 :: a2 :: a3 :: a4 :: a5 :: l =>
    do maxit <- int_of a2;
    let c3 := if mem (S2L "bB") (first a3) then chr 84 else first a3 in
    do passes <- match l with a6 :: _ => int_of a6 | [] => Ok (p_passes p) end;
    let newton := match l with _ :: a7 :: _ => argpos (S2L "NY") (first a7) | _ => 0 end in
    Ok (0, mkSP (atof a0) (atof a1) maxit (argpos (S2L "CTN") c3) (code (first a4) - 48) (argpos (S2L "NY") (first a5)) passes newton)
  | _ => Ok (-1, p)
  end.
End Parms.

(** simulation.h:20-25 and k_sim_order.cpp:293, 343: what KSIM_SORT stands for; any other value behaves as SORT_CONNEX. *)
Definition sort_of (z : Z) : sort_option := if z =? 2 then SORT_NONE else if z =? 1 then SORT_BOTH else SORT_CONNEX.
(** variables.h:39-48 and k_wsvar.cpp:389-421: what KSIM_START stands for; the switch does nothing with any other value. *)
Definition start_of (z : Z) : vinit :=
  if z =? 0 then TM1 else if z =? 1 then TM1_A else if z =? 2 then EXTRA else if z =? 3 then EXTRA_A
  else if z =? 5 then TM1_NA else if z =? 6 then EXTRA_NA else ASIS.

(** b_rep_fns.cpp:1579-1589 [RPF_SimSortAlgo]. *)
Definition SimSortAlgo {R} (p : sparms R) : str :=
  nth (Z.to_nat (if (p_sort p <? 0) || (2 <? p_sort p) then 1 else p_sort p)) [S2L "Connex"; S2L "Triangulation"; S2L "None"] [].
(** b_rep_fns.cpp:1515-1521, 1563-1569, 1599-1605 [RPF_SimMaxit], [RPF_SimSortNbPasses], [RPF_SimInitValues]. *)
Definition SimMaxit {R} (p : sparms R) : str := to_string (p_maxit p).
Definition SimSortNbPasses {R} (p : sparms R) : str := to_string (p_passes p).
Definition SimInitValues {R} (p : sparms R) : str := to_string (p_start p).
