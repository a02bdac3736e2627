(** Classes of expressions used in the statements about LEC evaluation. *)
From Coq Require Import ZArith Ascii String List Bool.
From Verif Require Import M_Base M_Time M_Names M_Lex M_Compile M_Bytes M_Exec S_Lec S_Eval.
Import ListNotations.
Open Scope Z_scope.

(** Operators, signs, constants, variables, coefficients, parentheses, suffixes and ordinary functions of
    any number of arguments that give NA on a NA argument; div0 excepted. *)
Fixpoint strict (e : ex) : bool :=
  match e with
  | ELeaf _ => true
  | EPar e | ESfx e _ => strict e
  | EPre (FN f) e => negb (accept_na f) && strict e
  | EApp (FN f) args _ => negb (accept_na f) && negb (match f with Fdiv0 => true | _ => false end) && forallb strict args
  | EBin _ a b => strict a && strict b
  | _ => false
  end.

(** No clock (t, i), no absolute period, no window function, no function of several series. *)
Definition is_lag (s : suffix) : bool := match s with SLag _ _ => true | SAt _ => false end.
Definition timeless_leaf (l : leaf) : bool :=
  match l with LPeriod _ | LVal Vtime | LVal Vi => false | _ => true end.
Definition relative (f : tfnr) : bool :=
  match f with Flag | Fdiff | Frapp | Fdln | Fgrt | Fmavg => true | _ => false end.
Fixpoint timeless (e : ex) : bool :=
  match e with
  | ELeaf l => timeless_leaf l
  | EPar e => timeless e
  | ESfx e s => is_lag s && timeless e
  | EPre f e => match f with FN _ => true | TFN f => relative f | MTFN _ => false end && timeless e
  | EApp f args sfx =>
    match f with FN _ => true | TFN f => relative f | MTFN _ => false end && forallb is_lag sfx && forallb timeless args
  | EBin _ a b => timeless a && timeless b
  end.

(** A formula whose text is read as the tree [e] and whose value at [t] is [v], within the limits of the
    byte code. *)
Definition formula (text : str) (e : ex) : Prop :=
  reading e /\ exists last, (last = T_EOF \/ last = T_EOE) /\ lex text = written e ++ [last].
Definition computable {A} (E : env A) (rb : str -> list Z) (e : ex) (t : Z) (v : F A) : Prop :=
  fits E rb [] e /\ size e < 32768 /\ value A E rb t [] e t = Ok v.

(** Windows of time functions: bounds in the order of the text, and the aggregate of the values. *)
Definition aggregate (A : arith) (f : tfnr) (vs : list (F A)) : F A :=
  let n := Z.of_nat (length vs) in
  let sum := fold_left (add A) vs (ofZ A 0) in
  match f with
  | Flastobs => last (filter (num A) vs) (na A)
  | _ =>
    if forallb (num A) vs then
      match f with
      | Fsum => sum
      | Fprod => fold_left (mul A) vs (ofZ A 1)
      | Fmean => if num A sum then dvd A sum (ofZ A n) else na A
      | Fvmax => fold_left (fun m v => if lt A m v then v else m) (tl vs) (hd (na A) vs)
      | Fvmin => fold_left (fun m v => if lt A v m then v else m) (tl vs) (hd (na A) vs)
      | _ => na A
      end
    else na A
  end.
Definition windowed (f : tfnr) : bool :=
  match f with Fsum | Fprod | Fmean | Fvmax | Fvmin | Flastobs => true | _ => false end.
