(** First stage of LEC compilation (api/lec/l_compile.cpp): tokens to a list of atomic elements. *)
From Coq Require Import ZArith Ascii String List Bool.
From Verif Require Import M_Base M_Time M_Names M_Lex.
Import ListNotations.
Open Scope Z_scope.

(** api/lec/lec.h:17 [ATOMIC_LEC]. Simplified: names are kept in the elements; the position in
    [L_NAMES] appears in the byte code (M_Bytes). *)
Inductive func := FN (f : fnr) | TFN (f : tfnr) | MTFN (f : mtfnr).
Inductive atom :=
| A_REAL (text : str) | A_LONG (n : Z) | A_COEF (name : str)
| A_VAR (name : str) (lag : Z) (p : period) | A_PERIOD (p : period)
| A_OPENP | A_CLOSEP | A_EOE
| A_OP (o : opr) | A_F (f : func) (nb_args : Z) | A_VAL (v : valr).

(** l_compile.cpp:5-14 [LSTACK]: operators, functions and open parenthesis markers. *)
Inductive sop := S_OPENP | S_OP (o : opr) | S_F (f : func).
Definition ostack := list (sop * Z).

(** api/lec/l_exec_ops.h:25 [L_PRIOR]. *)
Definition prior (o : opr) : Z :=
  match o with
  | Oor => 2 | Oand => 3
  | Oge | Ogt | Ole | Olt | Oeq | One => 4
  | Oplus | Ominus => 5 | Odivide | Otimes => 6 | Oexp => 7
  end.

(** api/lec/l_exec_fns.h:48-63, l_exec_tfn.h:26-30, l_exec_mtfn.h:24-28: argument counts. *)
Definition min_args (f : func) : Z :=
  match f with
  | FN Fif => 3 | FN Flstderr => 2 | FN Fgrandom => 2 | FN Fdiv0 => 2 | FN _ => 1
  | TFN Fdlag => 0 | TFN _ => 1
  | MTFN Fvariance => 1 | MTFN Fstddev => 1 | MTFN Finterpol => 1 | MTFN _ => 2
  end.
Definition max_args (f : func) : Z :=
  match f with
  | FN Flog => 2 | FN Fexpn => 2 | FN Fmax => 255 | FN Fmin => 255 | FN Fif => 3
  | FN Flsum => 255 | FN Flmean => 255 | FN Flcount => 255 | FN Flprod => 255 | FN Flstderr => 255
  | FN Fround => 2 | FN Fgrandom => 2 | FN Fdiv0 => 2 | FN _ => 1
  | TFN (Flag | Fdiff | Frapp | Fdln | Fgrt | Fmavg) => 2 | TFN Fdlag => 0 | TFN _ => 3
  | MTFN Fvariance => 3 | MTFN Fstddev => 3 | MTFN Finterpol => 1 | MTFN Fapp => 2 | MTFN Fdapp => 2
  | MTFN _ => 4
  end.

(** l_compile.cpp:113-131 [L_priority_sup]. *)
Definition priority_sup (o : opr) (ops : ostack) : bool :=
  match ops with
  | [] => false
  | (S_OPENP, _) :: _ => false
  | (S_F _, _) :: _ => true
  | (S_OP o', _) :: _ => prior o <=? prior o'
  end.

(** [L_EXPR] is kept reversed: its last element is the head of the list.
    l_compile.cpp:143-219 [L_save_op] on the popped element; None: L_ARGS_ERR. *)
Definition save_op (x : sop * Z) (rex : list atom) : option (list atom) :=
  match x with
  | (S_OPENP, _) => Some (A_OPENP :: rex)
  | (S_OP o, _) => Some (A_OP o :: rex)
  | (S_F f, nb) => if (max_args f <? nb) || (nb <? min_args f) then None else Some (A_F f nb :: rex)
  end.

(** Result of popping operators: the new state, or the stack left behind by an error. *)
Inductive popres := P_ok (rex : list atom) (ops : ostack) | P_err (ops : ostack).

(** l_compile.cpp:243-250, the loop [while(L_priority_sup(type)) L_save_op()]. *)
Fixpoint pop_prio (o : opr) (rex : list atom) (ops : ostack) : popres :=
  if priority_sup o ops then
    match ops with
    | [] => P_ok rex ops
    | x :: ops' =>
      match save_op x rex with Some rex' => pop_prio o rex' ops' | None => P_err ops' end
    end
  else P_ok rex ops.

(** l_compile.cpp:275-294, case L_CLOSEP of [L_add_stack]. *)
Fixpoint pop_close (rex : list atom) (ops : ostack) : popres :=
  match ops with
  | [] => P_err []
  | (S_OPENP, _) :: ops' => P_ok (A_CLOSEP :: rex) ops'
  | x :: ops' =>
    match save_op x rex with Some rex' => pop_close rex' ops' | None => P_err ops' end
  end.

(** l_compile.cpp:342-354 [L_empty_ops_stack], before the final L_EOE. *)
Fixpoint pop_all (rex : list atom) (ops : ostack) : popres :=
  match ops with
  | [] => P_ok rex []
  | x :: ops' =>
    match save_op x rex with Some rex' => pop_all rex' ops' | None => P_err ops' end
  end.

(** l_compile.cpp:676-729 [L_sub_expr] on the reversed list: number of elements of the last
    sub-expression, None when the beginning is passed (L_LAG_ERR). [need] counts the operands still to be
    skipped by the two recursive calls made on an operator. Simplified: the restart from the end of the
    vector when [close] is -1 in a recursive call (an operator without its two operands) is None here. *)
Fixpoint sub_count (rex : list atom) (parents : Z) (need : nat) : option nat :=
  match rex with
  | [] => None
  | a :: rex' =>
    let parents' :=
      match a with A_OPENP => parents - 1 | A_CLOSEP => parents + 1 | _ => parents end in
    if 0 <? parents' then option_map S (sub_count rex' parents' need)
    else
      match a with
      | A_OP _ => option_map S (sub_count rex' 0 (S need))
      | A_F _ _ => option_map S (sub_count rex' parents' need)
      | _ => match need with O => Some 1%nat | S n => option_map S (sub_count rex' 0 n) end
      end
  end.

(** l_compile.cpp:368-396 [L_lag_expr] and 411-443 [L_time_expr], one element; [lag] is a short. *)
Definition lag_atom (k : Z) (a : atom) : atom :=
  match a with
  | A_VAR n lag p => if step p =? 0 then A_VAR n (to_short (lag + k)) p else a
  | _ => a
  end.
Definition time_atom (q : period) (a : atom) : atom :=
  match a with
  | A_VAR n lag p => if step p =? 0 then A_VAR n lag q else a
  | _ => a
  end.
(** An empty [L_EXPR] is left unchanged (L_sub_expr returns -1 without setting L_errno). *)
Definition on_last_sub (f : atom -> atom) (rex : list atom) : option (list atom) :=
  match rex with
  | [] => Some []
  | _ =>
    match sub_count rex 0 0 with
    | Some n => Some (map f (firstn n rex) ++ skipn n rex)
    | None => None
    end
  end.

(** Outcome of the compilation. *)
Inductive cres := C_ok (expr : list atom) | C_err | C_ub | C_unmodelled.

(** Value tokens, l_compile.cpp:38-101 [L_save_var]. *)
Definition value_atom (t : token) : option atom :=
  match t with
  | T_PERIOD p => Some (A_PERIOD p)
  | T_LCONST n => Some (A_LONG n)
  | T_DCONST s => Some (A_REAL s)
  | T_VAR n => Some (A_VAR n 0 period0)
  | T_COEF n => Some (A_COEF n)
  | T_VAL v => Some (A_VAL v)
  | _ => None
  end.
Definition fn_token (t : token) : option func :=
  match t with T_FN f => Some (FN f) | T_TFN f => Some (TFN f) | T_MTFN f => Some (MTFN f) | _ => None end.

(** l_compile.cpp:524-665 [generate_lec_expression] with [L_add_stack] (239-332) and [L_analyze_lag]
    (460-505). [L_OPS] is a global: it is an input, and the stack left at the end is returned.
    A token list without a final T_EOF or T_EOE counts as a lexical error. *)
Fixpoint gen (toks : list token) (rex : list atom) (ops : ostack) (par : Z) (beg start : bool)
  : cres * ostack :=
  match toks with
  | [] => (C_err, ops)
  | T_UNMODELLED :: _ => (C_unmodelled, ops)
  | T_ERR :: _ => (C_err, ops)
  | (T_PERIOD _ | T_LCONST _ | T_DCONST _ | T_VAR _ | T_COEF _ | T_VAL _) as t :: toks' =>
    if negb beg then (C_err, ops)
    else
      match value_atom t with
      | Some a => gen toks' (a :: rex) ops par false false
      | None => (C_err, ops)
      end
  | T_OP o :: toks' =>
    if beg then
      match o with
      | Ominus => gen toks' rex ((S_F (FN Fuminus), 1) :: ops) par true false
      | Oplus => gen toks' rex ((S_F (FN Fuplus), 1) :: ops) par true false
      | _ => (C_err, ops)
      end
    else
      match pop_prio o rex ops with
      | P_ok rex' ops' => gen toks' rex' ((S_OP o, 1) :: ops') par true false
      | P_err ops' => (C_err, ops')
      end
  | (T_FN _ | T_TFN _ | T_MTFN _) as t :: toks' =>
    if negb beg then (C_err, ops)
    else
      match fn_token t with
      | Some f => gen toks' rex ((S_F f, 1) :: ops) par true false
      | None => (C_err, ops)
      end
  | T_OPENP :: toks' =>
    if negb beg then (C_err, ops)
    else gen toks' (A_OPENP :: rex) ((S_OPENP, 0) :: ops) (par + 1) true false
  | T_OCPAR :: toks' =>
    if negb beg then (C_err, ops)
    else
      match ops with
      | [] => (C_ub, ops)                               (* L_OPS.back() on an empty vector *)
      | (S_F (FN f), _) :: ops' => gen toks' rex ((S_F (FN f), 0) :: ops') par false false
      | _ => (C_err, ops)
      end
  | T_CLOSEP :: toks' =>
    if beg then (C_err, ops)
    else
      match pop_close rex ops with
      | P_ok rex' ops' => gen toks' rex' ops' (par - 1) false false
      | P_err ops' => (C_err, ops')
      end
  | T_COMMA :: toks' =>
    if beg then (C_err, ops)
    else
      match pop_close rex ops with
      | P_ok rex' ops' =>
        match ops' with
        | [] => (C_ub, ops')                            (* L_OPS.back() on an empty vector *)
        | (S_F f, nb) :: ops'' =>
          gen toks' (A_OPENP :: rex') ((S_OPENP, 0) :: (S_F f, nb + 1) :: ops'') par true false
        | _ => (C_err, ops')
        end
      | P_err ops' => (C_err, ops')
      end
  | T_OPENB :: toks' =>
    if beg then (C_err, ops)
    else
      match toks' with
      | T_OP o :: T_LCONST n :: T_CLOSEB :: toks'' =>
        match o with
        | Ominus | Oplus =>
          match on_last_sub (lag_atom (match o with Ominus => - n | _ => n end)) rex with
          | Some rex' => gen toks'' rex' ops par false false
          | None => (C_err, ops)
          end
        | _ => (C_err, ops)
        end
      | T_PERIOD q :: T_CLOSEB :: toks'' =>
        match on_last_sub (time_atom q) rex with
        | Some rex' => gen toks'' rex' ops par false false
        | None => (C_err, ops)
        end
      | _ => (C_err, ops)
      end
  | (T_EOF | T_EOE) :: _ =>
    if start then (C_ok (rev (A_EOE :: rex)), ops)
    else if beg then (C_err, ops)
    else if negb (par =? 0) then (C_err, ops)
    else
      match pop_all rex ops with
      | P_ok rex' ops' => (C_ok (rev (A_EOE :: rex')), ops')
      | P_err ops' => (C_err, ops')
      end
  | (T_CLOSEB | T_COLON) :: _ => (C_err, ops)
  end.

(** The whole first stage on a text, with the operator stack left by earlier compilations. *)
Definition compile_tokens (toks : list token) (ops : ostack) : cres * ostack := gen toks [] ops 0 true true.
Definition compile_text (text : str) (ops : ostack) : cres * ostack := compile_tokens (lex text) ops.
