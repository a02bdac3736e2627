(** Specification of the equations that are solved for one variable. *)
From Coq Require Import ZArith Ascii String List Bool.
From Verif Require Import M_Base M_Time M_Names M_Lex M_Compile M_Bytes M_Exec S_Lec S_Eval S_Law.
Import ListNotations.
Open Scope Z_scope.

(** The text is [l := r], the first := separating the members. *)
Definition equation (text : str) (l r : ex) : Prop :=
  exists lt rt, text = lt ++ S2L ":=" ++ rt /\ (forall a b, lt ++ S2L ":" <> a ++ S2L ":=" ++ b) /\
  formula lt l /\ formula rt r.

(** Number of occurrences of [x] at the current period, in the reverse polish form. *)
Definition here (x : str) (a : atom) : bool :=
  match a with A_VAR n lag p => (lag =? 0) && (step p =? 0) && str_eqb n x | _ => false end.
Definition times (x : str) (e : ex) : nat := length (filter (here x) (rpn e)).

(** No function of several arguments outside parentheses. *)
Fixpoint plain (e : ex) : bool :=
  match e with EPre _ e => plain e | EApp _ _ _ => false | EBin _ a b => plain a && plain b | _ => true end.

(** [x] is reached from the top through +, -, *, /, a power in base, ln, exp, signs, cos, sin, tan and the time
    functions d, dln, grt and r, on expressions that are [plain] where they end an operand. *)
Fixpoint isolable (x : str) (e : ex) : Prop :=
  match e with
  | ELeaf _ => True
  | EPar e => isolable x e
  | ESfx _ _ => False
  | EPre f e =>
    match f with
    | FN (Fln | Fexpn | Fuminus | Fuplus | Fcos | Fsin | Ftan) | TFN (Fdiff | Fdln | Fgrt | Frapp) => True
    | _ => False
    end /\ plain e = true /\ isolable x e
  | EApp f [n; e] [] =>
    match f with TFN (Fdiff | Fdln | Fgrt | Frapp) => True | _ => False end /\ times x n = 0%nat /\ isolable x e
  | EApp _ _ _ => False
  | EBin o a b =>
    match o with Oplus | Ominus | Otimes | Odivide => True | Oexp => times x b = 0%nat | _ => False end /\
    plain b = true /\ (times x a <> 0%nat -> isolable x a) /\ (times x a = 0%nat -> isolable x b)
  end.
(** The member that contains [x] and the other one. *)
Definition one_side (x : str) (l r e o : ex) : Prop :=
  (times x l = 1%nat /\ times x r = 0%nat /\ e = l /\ o = r) \/
  (times x l = 0%nat /\ times x r = 1%nat /\ e = r /\ o = l).

(** Laws of exact arithmetic. The functions of the library are the inverse of each other where they are numbers. *)
Record exact (A : arith) : Prop := {
  x_sub_add : forall a b, add A (sub A a b) b = a;
  x_add_sub : forall a b, sub A (add A a b) b = a;
  x_add_comm : forall a b, add A a b = add A b a;
  x_sub_sub : forall a b, sub A a (sub A a b) = b;
  x_mul_comm : forall a b, mul A a b = mul A b a;
  x_div_mul : forall a b, eq A b (ofZ A 0) = false -> mul A (dvd A a b) b = a;
  x_mul_div : forall a b, eq A b (ofZ A 0) = false -> dvd A (mul A a b) b = a;
  x_div_div : forall a b, eq A b (ofZ A 0) = false -> eq A (dvd A a b) (ofZ A 0) = false -> dvd A a (dvd A a b) = b;
  x_neg_neg : forall a, neg A (neg A a) = a;
  x_log_exp : forall a, log A (exp A a) = a;
  x_exp_log : forall a, le_f A a (ofZ A 0) = false -> exp A (log A a) = a;
  x_exp_add : forall a b, exp A (add A a b) = mul A (exp A a) (exp A b);
  x_exp_pos : forall a, lt A (exp A a) (ofZ A 0) = false;
  x_pow : forall a b, pow A (exp A a) b = exp A (mul A a b);
  x_cos : forall a, num A (lib1 A Facos a) = true -> lib1 A Fcos (lib1 A Facos a) = a;
  x_sin : forall a, num A (lib1 A Fasin a) = true -> lib1 A Fsin (lib1 A Fasin a) = a;
  x_tan : forall a, num A (lib1 A Fatan a) = true -> lib1 A Ftan (lib1 A Fatan a) = a
}.

Section Solution.
Context {A : arith} (E : env A) (rb : str -> list Z) (t : Z).
Notation val e := (value A E rb t [] e t).

(** If the variable has the value of [s], then the two members, when they are numbers, are equal. *)
Definition solves (x : str) (s l r : ex) : Prop :=
  forall v a b, val s = Ok v -> val (ELeaf (LVar x)) = Ok v ->
  val l = Ok a -> num A a = true -> val r = Ok b -> num A b = true -> a = b.

(** [x] is not in the expression; [x] is neither lagged, dated nor in a time function. *)
Fixpoint absent (x : str) (e : ex) : bool :=
  match e with
  | ELeaf (LVar n) => negb (str_eqb n x)
  | ELeaf _ => true
  | EPar e | ESfx e _ | EPre _ e => absent x e
  | EApp _ args _ => forallb (absent x) args
  | EBin _ a b => absent x a && absent x b
  end.
Fixpoint still (x : str) (e : ex) : bool :=
  match e with
  | ELeaf _ => true
  | EPar e => still x e
  | EPre (FN _) e => still x e
  | EApp (FN _) args [] => forallb (still x) args
  | EBin _ a b => still x a && still x b
  | e => absent x e
  end.
(** [x] occurs once, except in the arguments of time functions on the way to it, where it is [still]; the lag of these
    functions is not zero. *)
Fixpoint settled (x : str) (e : ex) : Prop :=
  match e with
  | ELeaf _ => True
  | EPar e => settled x e
  | EPre (TFN _) e => still x e = true
  | EPre _ e => settled x e
  | EApp (TFN _) [n; e] [] =>
    absent x n = true /\ still x e = true /\ forall c, val n = Ok c -> the_lag A [c] <> Ok 0
  | EBin _ a b => (times x a <> 0%nat -> settled x a /\ absent x b = true) /\ (times x a = 0%nat -> absent x a = true /\ settled x b)
  | _ => False
  end.
End Solution.

(** The variable [x] gets the value [v] at [t]. *)
Definition assign {A} (E : env A) (x : str) (t : Z) (v : F A) : env A := {|
  var_at := fun n =>
    if str_eqb n x then option_map (fun vals i => if i =? t then v else vals i) (var_at E n) else var_at E n;
  scalar := scalar E; smp := smp E |}.
(** The current period is in the sample of a known variable. *)
Definition inside {A} (E : env A) (x : str) (t : Z) : Prop := 0 <= t < s_nb (smp E) /\ var_at E x <> None.
