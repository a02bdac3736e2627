(** Specification of LEC formulas: expression trees, their written form and their reverse polish form. *)
From Coq Require Import ZArith Ascii String List Bool.
From Verif Require Import M_Base M_Time M_Names M_Lex M_Compile.
Import ListNotations.
Open Scope Z_scope.

(** Elementary operands. *)
Inductive leaf :=
| LReal (text : str) | LLong (n : Z) | LCoef (name : str) | LVar (name : str)
| LPeriod (p : period) | LVal (v : valr).
(** A suffix: [ [-n] ], [ [+n] ] or [ [1990Y1] ]. *)
Inductive suffix := SLag (neg : bool) (n : Z) | SAt (p : period).

(** Expression trees. [EPre f a] is a function applied to one operand ([f a], [f (a)], [-a]);
    [EApp f args sfx] is [f (a1, ..., an) sfx] with at least two arguments. *)
Inductive ex :=
| ELeaf (l : leaf)
| EPar (e : ex)
| ESfx (e : ex) (s : suffix)
| EPre (f : func) (e : ex)
| EApp (f : func) (args : list ex) (sfx : list suffix)
| EBin (o : opr) (a b : ex).

(** Written form. *)
Definition leaf_token (l : leaf) : token :=
  match l with
  | LReal s => T_DCONST s | LLong n => T_LCONST n | LCoef s => T_COEF s | LVar s => T_VAR s
  | LPeriod p => T_PERIOD p | LVal v => T_VAL v
  end.
Definition func_token (f : func) : token :=
  match f with
  | FN Fuminus => T_OP Ominus | FN Fuplus => T_OP Oplus
  | FN f => T_FN f | TFN f => T_TFN f | MTFN f => T_MTFN f
  end.
Definition sfx_tokens (s : suffix) : list token :=
  match s with
  | SLag neg n => [T_OPENB; T_OP (if neg then Ominus else Oplus); T_LCONST n; T_CLOSEB]
  | SAt p => [T_OPENB; T_PERIOD p; T_CLOSEB]
  end.
Fixpoint sep {A} (c : A) (l : list (list A)) : list A :=
  match l with [] => [] | [x] => x | x :: l' => x ++ c :: sep c l' end.
Fixpoint written (e : ex) : list token :=
  match e with
  | ELeaf l => [leaf_token l]
  | EPar e => T_OPENP :: written e ++ [T_CLOSEP]
  | ESfx e s => written e ++ sfx_tokens s
  | EPre f e => func_token f :: written e
  | EApp f args sfx =>
    func_token f :: T_OPENP :: sep T_COMMA (map written args) ++ T_CLOSEP :: flat_map sfx_tokens sfx
  | EBin o a b => written a ++ T_OP o :: written b
  end.

(** Binding strength of the root: the binary operators from weakest to strongest
    (or; and; comparisons; + -; * /; exponentiation), then function application, then primaries. *)
Definition strength (o : opr) : Z :=
  match o with
  | Oor => 2 | Oand => 3
  | Oge | Ogt | Ole | Olt | Oeq | One => 4
  | Oplus | Ominus => 5 | Otimes | Odivide => 6 | Oexp => 7
  end.
Definition level (e : ex) : Z :=
  match e with
  | EBin o _ _ => strength o
  | EPre _ _ | EApp _ _ _ => 8
  | _ => 9
  end.

(** A tree is the reading of its written form: every operator is left associative, a function applies to
    one operand stronger than every operator, a suffix applies to a primary; and the numbers of arguments
    are within the limits of the functions. *)
Fixpoint reading (e : ex) : Prop :=
  match e with
  | ELeaf _ => True
  | EPar e => reading e
  | ESfx e _ => reading e /\ level e = 9
  | EPre f e => reading e /\ 8 <= level e /\ min_args f <= 1 <= max_args f
  | EApp f args _ =>
    (fix all (l : list ex) : Prop := match l with [] => True | e :: l' => reading e /\ all l' end) args /\
    (2 <= length args)%nat /\ min_args f <= Z.of_nat (length args) <= max_args f /\
    f <> FN Fuminus /\ f <> FN Fuplus
  | EBin o a b => reading a /\ reading b /\ strength o <= level a /\ strength o < level b
  end.

(** Reverse polish form. A suffix acts on every variable below it (that is not yet fixed in time). *)
Definition sfx_atom (s : suffix) : atom -> atom :=
  match s with SLag neg n => lag_atom (if neg then - n else n) | SAt p => time_atom p end.
Definition leaf_atom (l : leaf) : atom :=
  match l with
  | LReal s => A_REAL s | LLong n => A_LONG n | LCoef s => A_COEF s | LVar s => A_VAR s 0 period0
  | LPeriod p => A_PERIOD p | LVal v => A_VAL v
  end.
Definition group (x : list atom) : list atom := A_OPENP :: x ++ [A_CLOSEP].
Definition sfx_all (sfx : list suffix) (x : list atom) : list atom :=
  fold_left (fun x s => map (sfx_atom s) x) sfx x.
(** The suffixes written after the last parenthesis of a function of several arguments act on the last
    argument only. *)
Fixpoint groups (sfx : list suffix) (l : list (list atom)) : list atom :=
  match l with
  | [] => []
  | [x] => sfx_all sfx (group x)
  | x :: l' => group x ++ groups sfx l'
  end.
Fixpoint rpn (e : ex) : list atom :=
  match e with
  | ELeaf l => [leaf_atom l]
  | EPar e => group (rpn e)
  | ESfx e s => map (sfx_atom s) (rpn e)
  | EPre f e => rpn e ++ [A_F f 1]
  | EApp f args sfx => groups sfx (map rpn args) ++ [A_F f (Z.of_nat (length args))]
  | EBin o a b => rpn a ++ rpn b ++ [A_OP o]
  end.

(** Induction on trees. *)
Section Ind.
Variable P : ex -> Prop.
Hypothesis Hleaf : forall l, P (ELeaf l).
Hypothesis Hpar : forall e, P e -> P (EPar e).
Hypothesis Hsfx : forall e s, P e -> P (ESfx e s).
Hypothesis Hpre : forall f e, P e -> P (EPre f e).
Hypothesis Happ : forall f args sfx, Forall P args -> P (EApp f args sfx).
Hypothesis Hbin : forall o a b, P a -> P b -> P (EBin o a b).
Fixpoint ex_ind2 (e : ex) : P e :=
  match e with
  | ELeaf l => Hleaf l
  | EPar e => Hpar e (ex_ind2 e)
  | ESfx e s => Hsfx e s (ex_ind2 e)
  | EPre f e => Hpre f e (ex_ind2 e)
  | EApp f args sfx =>
    Happ f args sfx ((fix all l : Forall P l :=
      match l with [] => Forall_nil _ | x :: l' => Forall_cons x (ex_ind2 x) (all l') end) args)
  | EBin o a b => Hbin o a b (ex_ind2 a) (ex_ind2 b)
  end.
End Ind.
