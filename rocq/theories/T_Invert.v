(** Properties C35 and C36: equations solved for their endogenous variable. *)
From Coq Require Import ZArith Ascii String List Bool Lia Reals Lra.
From Verif Require Import M_Base M_Time M_Names M_Lex M_Compile M_Bytes M_Exec M_Double M_Real M_Invert
  S_Lec S_Eval S_Law S_Invert L_Names L_Compile L_Compile3 L_Eval L_Invert L_Invert2 L_Invert4 L_Invert5 L_Invert6 L_Law.
Import ListNotations.
Open Scope Z_scope.

(** * Environments of the examples: one period, variables X, A and Y *)
Definition nr : str -> list Z := fun _ => repeat 0 8.
Definition y2000 : period := {| year := 2000; per := "Y"%char; step := 1 |}.
Definition axy {A} (x a y : F A) : env A :=
  Build_env A (fun n => option_map (fun v (_ : Z) => v) (lookup n [(S2L "X", x); (S2L "A", a); (S2L "Y", y)]))
    (fun _ => None) (mkS y2000 y2000 1).
Definition sol {A} (E : env A) (s : string) : res (F A) := inverted_value A E nr (S2L s) (S2L "X") 0.
Definition V (s : string) : ex := ELeaf (LVar (S2L s)).
Definition N (n : Z) : ex := ELeaf (LLong n).
Definition X : str := S2L "X".
Ltac facts := cbn; repeat split; try lia; try discriminate; try exact Logic.I.
Ltac is_formula := split; [facts|exists T_EOF; split; [auto|reflexivity]].
(** The text lt := rt of two formulas, without := in the left one. *)
Fixpoint no_eq (s : str) : bool :=
  match s with a :: s' => negb (code a =? 58) && no_eq s' | [] => true end.
Lemma no_eq_first s : no_eq s = true -> forall a b, s ++ S2L ":" <> a ++ S2L ":=" ++ b.
Proof.
  induction s as [|c s IH]; intros H a b K.
  - destruct a as [|? [|]]; discriminate.
  - cbn in H. apply andb_true_iff in H. destruct H as [H1 H2]. destruct a as [|d a].
    + injection K as -> _. discriminate H1.
    + injection K as _ K. exact (IH H2 a b K).
Qed.
Lemma make_equation lt rt l r : no_eq lt = true -> formula lt l -> formula rt r -> equation (lt ++ S2L ":=" ++ rt) l r.
Proof. intros H Hl Hr. exists lt, rt. split; [reflexivity|]. split; [apply no_eq_first, H|]. auto. Qed.

(** * C35 *)
(** An equation in which the endogenous variable x is reached through operators, a power in base, ln, exp, signs, cos,
    sin, tan and the changes d, dln, grt and r: the inversion gives the reverse polish form of a tree s, and in exact
    arithmetic, whatever the values of the variables, if x has the value of s then the two members are equal when they
    are numbers. *)
Theorem C35_tree_partial : forall text l r x e o, equation text l r -> one_side x l r e o -> isolable x e ->
  exists s names, invert text x [] = Inv (rpn s ++ [A_EOE]) false names /\
  forall A (E : env A) rb t, exact A -> solves E rb t x s l r.
Proof.
  intros text l r x e o Q O I. exists (solve x o e), (names_of (rpn l ++ rpn r)).
  split; [apply invert_solved with (1 := Q); assumption|].
  intros A E rb t Ex v a b Vs Vx Va Na Vb Nb.
  destruct O as [(T1 & T2 & -> & ->) | (T1 & T2 & -> & ->)].
  - pose proof (solve_sound Ex E rb t x l r v a I T1 Vs Vx Va Na) as K. congruence.
  - pose proof (solve_sound Ex E rb t x r l v b I T2 Vs Vx Vb Nb) as K. congruence.
Qed.
Print Assumptions C35_tree_partial.

(** The same from the text to the values, without the hypothesis that x already has the value: solve, execute the
    result, give its value to x at the period; the two members are equal when they are numbers. Without time function. *)
Theorem C35_value_partial : forall A (E : env A) rb t text l r x e o a0 b0, exact A ->
  equation text l r -> one_side x l r e o -> isolable x e ->
  still x e = true -> absent x o = true -> inside E x t ->
  computable E rb l t a0 -> computable E rb r t b0 ->
  strict l = true -> strict r = true -> 5 * (size l + size r) < 32768 ->
  exists v, inverted_value A E rb text x t = Ok v /\
  forall a b, value A (assign E x t v) rb t [] l t = Ok a -> num A a = true ->
    value A (assign E x t v) rb t [] r t = Ok b -> num A b = true -> a = b.
Proof.
  intros A E rb t text l r x e o a0 b0 Ex. exact (solved_strict Ex E rb t text l r x e o a0 b0).
Qed.
Print Assumptions C35_value_partial.

(** With time functions: [settled] asks that x is not read at another period by the solution, so that giving its value
    to x does not change it; the execution of the solution must be steady (C32). *)
Theorem C35_change_partial : forall A (E : env A) rb t text l r x e o a0 b0, exact A ->
  equation text l r -> one_side x l r e o -> isolable x e ->
  settled E rb t x e -> absent x o = true -> inside E x t ->
  computable E rb l t a0 -> computable E rb r t b0 ->
  exists s names v, invert text x [] = Inv (rpn s ++ [A_EOE]) false names /\ value A E rb t [] s t = Ok v /\
  (size l + size r < 32768 -> size s < 32768 -> steady false [] s = true -> inverted_value A E rb text x t = Ok v) /\
  forall a b, value A (assign E x t v) rb t [] l t = Ok a -> num A a = true ->
    value A (assign E x t v) rb t [] r t = Ok b -> num A b = true -> a = b.
Proof.
  intros A E rb t text l r x e o a0 b0 Ex Q O I S Ab In C1 C2.
  destruct (solved Ex E rb t text l r x e o a0 b0 Q O I S Ab In C1 C2) as (v & H1 & H2 & H3).
  exists (solve x o e), (names_of (rpn l ++ rpn r)), v. split; [apply invert_solved with (1 := Q); assumption|auto].
Qed.
Print Assumptions C35_change_partial.

(** When x is there several times, the value is the difference of the members, marked as such (it is then solved by
    iterations); when it is not there, an error is returned. *)
Theorem C35_several : forall A (E : env A) rb t text l r x a b,
  equation text l r -> (2 <= times x l + times x r)%nat ->
  computable E rb l t a -> computable E rb r t b -> size l + size r < 32767 ->
  steady false [] l = true -> steady true [] r = true ->
  (exists atoms names, invert text x [] = Inv atoms true names) /\
  inverted_value A E rb text x t = Ok (if num A a && num A b then sub A a b else na A).
Proof.
  intros A E rb t text l r x a b Q T (Fl & _ & Vl) (Fr & _ & Vr) Sz S1 S2.
  pose proof (invert_several text l r x Q T) as H. split; [eexists; eexists; exact H|].
  assert (shape l /\ shape r) as [Hl Hr].
  { destruct Q as (lt & rt & _ & _ & Hl & Hr). split; apply reading_shape; [apply Hl|apply Hr]. }
  eapply tree_run with (s := EBin Ominus l r); eauto.
  - split; assumption.
  - intros n Hn. cbn [tree_names] in Hn. apply in_app_iff. exact Hn.
  - split; assumption.
  - lia.
  - cbn [size]. lia.
  - cbn [steady]. rewrite S1, S2. reflexivity.
  - cbn [value]. rewrite Vl, Vr. cbn [rbind]. unfold op_value. cbn [all_num forallb]. rewrite andb_true_r.
    destruct (num A a && num A b); reflexivity.
Qed.
Print Assumptions C35_several.
Theorem C35_none : forall text l r x, equation text l r -> times x l = 0%nat -> times x r = 0%nat -> invert text x [] = Inv_err.
Proof. exact invert_absent. Qed.
Print Assumptions C35_none.

(** The laws of exact arithmetic hold on the real numbers. *)
Theorem C35_reals : exact reals.
Proof. exact exact_reals. Qed.
Print Assumptions C35_reals.

Definition rxy (x a y : R) : env reals := axy (A := reals) x a y.
Definition ex_l : ex := EBin Ominus (EBin Otimes (V "A") (EPre (FN Fln) (V "X"))) (EPar (EBin Odivide (V "Y") (N 3))).
Definition ex_r : ex := EBin Oplus (EPre (FN Fexpn) (EPar (V "Y"))) (N 2).
Definition ex_text : string := "A * ln X - (Y / 3) := exp(Y) + 2".
Lemma ex_equation : equation (S2L ex_text) ex_l ex_r.
Proof. apply (make_equation (S2L "A * ln X - (Y / 3) ") (S2L " exp(Y) + 2")); [reflexivity|is_formula|is_formula]. Qed.
Example C35_value_ex : forall x a y : R, exists v, sol (rxy x a y) ex_text = Ok v /\
  forall u w, value reals (assign (rxy x a y) X 0 v) nr 0 [] ex_l 0 = Ok u -> r_num u = true ->
    value reals (assign (rxy x a y) X 0 v) nr 0 [] ex_r 0 = Ok w -> r_num w = true -> u = w.
Proof.
  intros x a y.
  assert (L : forall n, In n ["X"; "A"; "Y"]%string -> has (rxy x a y) nr 0 (V n)).
  { intros n Hn. cbn in Hn. destruct Hn as [<- |[<- |[<- |[]]]]; eexists; reflexivity. }
  assert (K : forall z, has (rxy x a y) nr 0 (N z)) by (intro z; eexists; reflexivity).
  assert (Hl : has (rxy x a y) nr 0 ex_l).
  { unfold ex_l. repeat first [apply has_bin; [exact Logic.I| |] | apply has_fn; [reflexivity|] | apply L; cbn; tauto | apply K]. }
  assert (Hr : has (rxy x a y) nr 0 ex_r).
  { unfold ex_r. apply has_bin; [exact Logic.I| |apply K]. apply has_fn; [reflexivity|].
    assert (H : has (rxy x a y) nr 0 (V "Y")) by (apply L; cbn; tauto). exact H. }
  destruct Hl as [a0 Hl]. destruct Hr as [b0 Hr].
  apply (C35_value_partial reals (rxy x a y) nr 0 (S2L ex_text) ex_l ex_r X ex_l ex_r a0 b0 exact_reals ex_equation).
  - left. repeat split.
  - facts.
  - reflexivity.
  - reflexivity.
  - split; [cbn; lia|discriminate].
  - split; [facts|split; [reflexivity|exact Hl]].
  - split; [facts|split; [reflexivity|exact Hr]].
  - reflexivity.
  - reflexivity.
  - reflexivity.
Qed.
Print Assumptions C35_value_ex.
(** A time function: the solution of d X := A + Y reads X at the previous period. *)
Definition ex_d : ex := EPre (TFN Fdiff) (V "X").
Definition ex_s : ex := EBin Oplus (V "A") (V "Y").
Definition two_years : env double := d_env y2000 2
  [(S2L "X", [Some 7; None]); (S2L "A", [Some 1; Some 2]); (S2L "Y", [Some 1; Some 3])] [].
Example C35_change_ex : equation (S2L "d X := A + Y") ex_d ex_s /\ one_side X ex_d ex_s ex_d ex_s /\ isolable X ex_d /\
  settled two_years nr 1 X ex_d /\ absent X ex_s = true /\ inside two_years X 1 /\
  inverted_value double two_years nr (S2L "d X := A + Y") X 1 = Ok (d_ofZ 12) /\
  value double (assign two_years X 1 (d_ofZ 12)) nr 1 [] ex_d 1 = Ok (d_ofZ 5) /\
  value double (assign two_years X 1 (d_ofZ 12)) nr 1 [] ex_s 1 = Ok (d_ofZ 5).
Proof.
  split; [apply (make_equation (S2L "d X ") (S2L " A + Y")); [reflexivity|is_formula|is_formula]|].
  split; [left; repeat split|]. split; [facts|]. split; [reflexivity|]. split; [reflexivity|].
  split; [split; [cbn; lia|discriminate]|]. split; [vm_compute; reflexivity|]. split; vm_compute; reflexivity.
Qed.
Example C35_several_ex : (2 <= times X (EBin Otimes (V "X") (V "A")) + times X (EBin Oplus (V "X") (V "Y")))%nat /\
  sol (axy (A := double) (d_ofZ 4) (d_ofZ 3) (d_ofZ 9)) "X * A := X + Y" = Ok (d_ofZ (-1)).
Proof. split; [cbn; lia|vm_compute; reflexivity]. Qed.
Example C35_none_ex : equation (S2L "A := X[-1] + Y") (V "A") (EBin Oplus (ESfx (V "X") (SLag true 1)) (V "Y")) /\
  invert (S2L "A := X[-1] + Y") X [] = Inv_err.
Proof. split; [apply (make_equation (S2L "A ") (S2L " X[-1] + Y")); [reflexivity|is_formula|is_formula]|reflexivity]. Qed.

(** Missing: the other functions. The exponent of a power is taken for log(A, Y), that is ln A / ln Y: in real numbers,
    with A = exp 1 and Y = exp 2, the solution of A^X := Y is 1/2 in place of 2. *)
Lemma power_solution A (x a y : F A) : sol (axy x a y) "A^X := Y" =
  Ok (if num A a && num A y then L_divide A (L_logn A a) (L_logn A y) else na A).
Proof. destruct A; vm_compute. destruct (num y), (num a); reflexivity. Qed.
Lemma exp2_solution A (x a y : F A) : sol (axy x a y) "exp(X,2) := Y" = Ok (if num A y then L_logn A y else na A).
Proof. destruct A; vm_compute. destruct (num y); reflexivity. Qed.
Lemma acos_solution A (x a y : F A) : sol (axy x a y) "acos X := Y" = Ok (if num A y then lib1 A Fcos y else na A).
Proof. destruct A; vm_compute. destruct (num y); reflexivity. Qed.
Lemma r_num_pos x : (0 <= x)%R -> r_num x = true.
Proof.
  intros H. unfold r_num. destruct (Rle_dec _ _) as [|K]; [reflexivity|]. exfalso. apply K.
  assert (0 < 10 ^ 37)%R by (apply pow_lt; lra). lra.
Qed.
Lemma r_logn_exp u : r_num (Rtrigo_def.exp u) = true -> L_logn reals (Rtrigo_def.exp u) = u.
Proof.
  intros H. unfold L_logn. cbn. rewrite H. cbn. pose proof (exp_pos u). unfold le_f. cbn. unfold r_lt, r_eq.
  destruct (Rlt_dec _ _); [exfalso; lra|]. destruct (Req_EM_T _ _); [exfalso; lra|]. cbn. apply ln_exp.
Qed.
Theorem C35_power_refuted : forall x : R,
  let E := axy (A := reals) x (Rtrigo_def.exp 1) (Rtrigo_def.exp 2) in
  sol E "A^X := Y" = Ok (1 / 2)%R /\
  value reals (assign E X 0 (1 / 2)%R) nr 0 [] (EBin Oexp (V "A") (V "X")) 0 = Ok (Rtrigo_def.exp (1 / 2)) /\
  value reals (assign E X 0 (1 / 2)%R) nr 0 [] (V "Y") 0 = Ok (Rtrigo_def.exp 2) /\
  Rtrigo_def.exp (1 / 2) <> Rtrigo_def.exp 2.
Proof.
  intros x E. pose proof (exp_pos 1) as P1. pose proof (exp_pos 2) as P2.
  assert (H1 : r_num (Rtrigo_def.exp 1) = true) by (apply r_num_pos; lra).
  assert (H2 : r_num (Rtrigo_def.exp 2) = true) by (apply r_num_pos; lra).
  split; [|split; [|split]].
  - unfold E. rewrite power_solution. cbn [num reals]. rewrite H1, H2. cbn [andb].
    rewrite (r_logn_exp 1 H1), (r_logn_exp 2 H2). unfold L_divide. cbn [num reals]. rewrite !r_num_pos by lra. cbn.
    unfold r_eq. destruct (Req_EM_T 2 0); [exfalso; lra|]. reflexivity.
  - cbn. unfold op_value. cbn. rewrite H1. rewrite r_num_pos by lra. cbn. unfold L_exp. cbn. unfold r_lt.
    destruct (Rlt_dec _ _); [exfalso; lra|]. unfold r_pow. destruct (Rlt_dec _ _); [|exfalso; lra].
    unfold Rpower. rewrite ln_exp. do 2 f_equal. lra.
  - reflexivity.
  - intros K. apply exp_inv in K. lra.
Qed.
Print Assumptions C35_power_refuted.
(** The second argument of exp is ignored: exp(X,2) is X to the power 2, the solution for Y = 1 is ln 1. The values of
    acos are between 0 and pi: cos 7 is given as the solution of acos X := 7. *)
Theorem C35_exp2_refuted : forall x a : R,
  let E := axy (A := reals) x a 1%R in
  sol E "exp(X,2) := Y" = Ok 0%R /\
  value reals (assign E X 0 0%R) nr 0 [] (EApp (FN Fexpn) [V "X"; N 2] []) 0 = Ok 0%R /\
  value reals (assign E X 0 0%R) nr 0 [] (V "Y") 0 = Ok 1%R.
Proof.
  intros x a E. assert (H1 : r_num 1 = true) by (apply r_num_pos; lra).
  split; [|split].
  - unfold E. rewrite exp2_solution. cbn [num reals]. rewrite H1. unfold L_logn. cbn [num reals]. rewrite H1.
    unfold le_f. cbn. unfold r_lt, r_eq. destruct (Rlt_dec _ _); [exfalso; lra|]. destruct (Req_EM_T _ _); [exfalso; lra|].
    cbn. rewrite ln_1. reflexivity.
  - cbn. unfold apply. cbn. unfold fn_value. cbn. rewrite !r_num_pos by lra. cbn. unfold L_exp. cbn. unfold r_lt, r_pow.
    destruct (Rlt_dec _ _); [exfalso; lra|].
    destruct (Req_EM_T 0 0); [|exfalso; lra]. destruct (Req_EM_T 2 0); [exfalso; lra|]. reflexivity.
  - reflexivity.
Qed.
Print Assumptions C35_exp2_refuted.
Theorem C35_acos_refuted : forall x a : R,
  let E := axy (A := reals) x a 7%R in
  sol E "acos X := Y" = Ok (cos 7) /\
  value reals (assign E X 0 (cos 7)) nr 0 [] (EPre (FN Facos) (V "X")) 0 = Ok (acos (cos 7)) /\
  acos (cos 7) <> 7%R.
Proof.
  intros x a E. pose proof (COS_bound 7) as B.
  assert (H : r_num (cos 7) = true).
  { unfold r_num. destruct (Rle_dec _ _) as [|K]; [reflexivity|]. exfalso. apply K.
    assert (1 <= 10 ^ 37)%R by (apply pow_R1_Rle; lra). lra. }
  split; [|split].
  - unfold E. rewrite acos_solution. cbn [num reals]. rewrite r_num_pos by lra. reflexivity.
  - cbn. unfold apply. cbn. unfold fn_value. cbn. rewrite H. cbn.
    destruct (Rle_dec (-1) (cos 7)); [|exfalso; lra]. destruct (Rle_dec (cos 7) 1); [|exfalso; lra]. reflexivity.
  - pose proof (acos_bound (cos 7)). pose proof PI_4. lra.
Qed.
Print Assumptions C35_acos_refuted.
(** An operand that is a function of several arguments is cut in two: the result is not an expression, its execution
    takes values from an empty stack. *)
Theorem C35_garbled_refuted :
  (exists l r, equation (S2L "X + max(A,2) := Y") l r) /\
  sol (axy (A := double) (d_ofZ 4) (d_ofZ 1) (d_ofZ 9)) "X + max(A,2) := Y" = UB /\
  (exists l r, equation (S2L "ln d(2,X) := Y") l r) /\
  sol (axy (A := double) (d_ofZ 4) (d_ofZ 1) (d_ofZ 9)) "ln d(2,X) := Y" = UB.
Proof.
  split; [|split; [vm_compute; reflexivity|split; [|vm_compute; reflexivity]]].
  - exists (EBin Oplus (V "X") (EApp (FN Fmax) [V "A"; N 2] [])), (V "Y").
    apply (make_equation (S2L "X + max(A,2) ") (S2L " Y")); [reflexivity|is_formula|is_formula].
  - exists (EPre (FN Fln) (EApp (TFN Fdiff) [N 2; V "X"] [])), (V "Y").
    apply (make_equation (S2L "ln d(2,X) ") (S2L " Y")); [reflexivity|is_formula|is_formula].
Qed.
Print Assumptions C35_garbled_refuted.

(** * C36 *)
(** The inversion of two accepted members gives an expression or an error; it raises an exception only if the functions
    sqrt or log are in the equation. *)
Theorem C36_outcome_partial : forall text l r x, equation text l r ->
  (exists expr dup names, invert text x [] = Inv expr dup names) \/ invert text x [] = Inv_err \/
  (invert text x [] = Inv_throw /\
   exists n, In (A_F (FN Fsqrt) n) (rpn l ++ rpn r) \/ In (A_F (FN Flog) n) (rpn l ++ rpn r)).
Proof.
  intros text l r x Q. rewrite (invert_equation text l r x Q).
  assert (shape l /\ shape r) as [Hl Hr].
  { destruct Q as (lt & rt & _ & _ & Hl & Hr). split; apply reading_shape; [apply Hl|apply Hr]. }
  destruct (members_fair x (rpn l) (rpn r)) as (H1 & H2 & H3); [right; apply rpn_seqn; assumption|right; apply rpn_seqn; assumption|].
  destruct (invert_members x (rpn l) (rpn r)) as [expr dup names| | | |]; try contradiction.
  - left. eexists; eexists; eexists; reflexivity.
  - right. left. reflexivity.
  - right. right. split; [reflexivity|]. destruct (H3 eq_refl) as [n H]. exists n. exact H.
Qed.
Print Assumptions C36_outcome_partial.
Example C36_outcome_ex : equation (S2L "max(X,2) + ln d(2,A) := Y")
    (EBin Oplus (EApp (FN Fmax) [V "X"; N 2] []) (EPre (FN Fln) (EApp (TFN Fdiff) [N 2; V "A"] []))) (V "Y") /\
  invert (S2L "max(X,2) + ln d(2,A) := Y") X [] = Inv_err.
Proof. split; [apply (make_equation (S2L "max(X,2) + ln d(2,A) ") (S2L " Y")); [reflexivity|is_formula|is_formula]|reflexivity]. Qed.
(** An equation without := or with an empty left member: an error. *)
Theorem C36_no_equal : forall text x ops, (forall a b, text <> a ++ S2L ":=" ++ b) -> invert text x ops = Inv_err.
Proof.
  intros text x ops H. unfold invert. destruct (split_eq text) as [[l r]|] eqn:S; [exfalso|reflexivity].
  apply (H l r). clear H. revert l S. induction text as [|a text IH]; intros l S; [discriminate|].
  destruct text as [|b text]; [discriminate|].
  change (split_eq (a :: b :: text)) with
    (if (code a =? 58) && (code b =? 61) then Some ([], text)
     else match split_eq (b :: text) with Some (l, r) => Some (a :: l, r) | None => None end) in S.
  destruct ((code a =? 58) && (code b =? 61)) eqn:Q.
  - injection S as <- <-. apply andb_true_iff in Q. destruct Q as [Q1 Q2]. apply Z.eqb_eq in Q1. apply Z.eqb_eq in Q2.
    cbn. rewrite (L_Kdb.code_inj a ":"%char), (L_Kdb.code_inj b "="%char); auto.
  - destruct (split_eq (b :: text)) as [[l' r']|]; [|discriminate]. injection S as <- <-. cbn [app]. f_equal. apply IH. reflexivity.
Qed.
Print Assumptions C36_no_equal.
Theorem C36_no_equal_value : forall A (E : env A) rb text x t, (forall a b, text <> a ++ S2L ":=" ++ b) ->
  inverted_value A E rb text x t = Throw.
Proof. intros. unfold inverted_value. rewrite C36_no_equal by assumption. reflexivity. Qed.
Print Assumptions C36_no_equal_value.
(** An equation that uses a variable or a coefficient that does not exist has no solution, whatever its form. *)
Theorem C36_unknown : forall A (E : env A) rb text l r x t n, equation text l r ->
  In n (flat_map atom_name (rpn l ++ rpn r)) ->
  (if M_Names.is_coefficient n then scalar E n = None else var_at E n = None) ->
  forall v, inverted_value A E rb text x t <> Ok v.
Proof. exact @unknown_no_value. Qed.
Print Assumptions C36_unknown.
Example C36_unknown_ex : equation (S2L "d X := A + B") ex_d (EBin Oplus (V "A") (V "B")) /\
  var_at two_years (S2L "B") = None /\ inverted_value double two_years nr (S2L "d X := A + B") X 1 = Throw.
Proof.
  split; [apply (make_equation (S2L "d X ") (S2L " A + B")); [reflexivity|is_formula|is_formula]|]. split; reflexivity.
Qed.

(** Missing: sqrt and log are undone by an operator that is not a function, which raises an exception; a member that is
    not a formula leaves an empty container whose last element is removed. *)
Theorem C36_exception_refuted : exists l r, equation (S2L "sqrt(X) := A + 1") l r /\
  invert (S2L "sqrt(X) := A + 1") X [] = Inv_throw /\ invert (S2L "log X := A + 1") X [] = Inv_throw.
Proof.
  exists (EPre (FN Fsqrt) (EPar (V "X"))), (EBin Oplus (V "A") (N 1)).
  split; [apply (make_equation (S2L "sqrt(X) ") (S2L " A + 1")); [reflexivity|is_formula|is_formula]|]. split; reflexivity.
Qed.
Print Assumptions C36_exception_refuted.
(** Whatever the equation: the left member is rejected by the compiler, and the last element of an empty vector is
    removed; the same for the right member after a formula. *)
Theorem C36_rejected_refuted : forall lt rt x l,
  (forall a b, lt ++ S2L ":" <> a ++ S2L ":=" ++ b) ->
  (fst (compile_text lt []) = C_err -> invert (lt ++ S2L ":=" ++ rt) x [] = Inv_ub) /\
  (formula lt l -> fst (compile_text rt []) = C_err -> invert (lt ++ S2L ":=" ++ rt) x [] = Inv_ub).
Proof.
  intros lt rt x l F. unfold invert. rewrite split_eq_first by exact F. split.
  - intros H. destruct (compile_text lt []) as [c o]. cbn in H. subst c. reflexivity.
  - intros Hl H. rewrite (formula_compiled lt l Hl), removelast_last.
    destruct (rpn l) as [|a m] eqn:Q; [exfalso; apply (rpn_nonempty l); [apply reading_shape, Hl|exact Q]|].
    destruct (compile_text rt []) as [c o]. cbn in H. subst c. reflexivity.
Qed.
Print Assumptions C36_rejected_refuted.
Example C36_rejected_ex : invert (S2L "X + := Y") X [] = Inv_ub /\ invert (S2L "X := (Y") X [] = Inv_ub.
Proof. split; reflexivity. Qed.
