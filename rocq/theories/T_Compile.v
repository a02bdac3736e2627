(** Properties C25 (compilation half), C26, C46: the first stage of the LEC compiler. *)
From Coq Require Import ZArith Ascii String List Bool Lia.
From Verif Require Import M_Base M_Time M_Names M_Lex M_Compile S_Lec L_Compile L_Compile2 L_Compile3.
Import ListNotations.
Open Scope Z_scope.

(** C25, compilation: the written form of an expression tree, followed by the end of the text or by ';',
    is compiled to the reverse polish form of that tree. *)
Theorem C25_compile : forall text e last, reading e -> last = T_EOF \/ last = T_EOE ->
  lex text = written e ++ [last] -> fst (compile_text text []) = C_ok (rpn e ++ [A_EOE]).
Proof.
  intros text e last R L E. unfold compile_text. rewrite E, (compile_written e last R L []). reflexivity.
Qed.
Print Assumptions C25_compile.
(** Precedence leaves no choice: trees with the same written form are compiled alike. *)
Theorem C25_unambiguous : forall a b, reading a -> reading b -> written a = written b -> rpn a = rpn b.
Proof. exact written_rpn. Qed.
Print Assumptions C25_unambiguous.
Definition c25_tree : ex :=
  EBin Oor
    (EBin Olt (ELeaf (LVar (S2L "A")))
       (EBin Ominus
          (EBin Ominus (EPre (FN Fuminus) (ESfx (ELeaf (LVar (S2L "B"))) (SLag true 1)))
             (EBin Otimes (ELeaf (LLong 2)) (EBin Oexp (EBin Oexp (ELeaf (LVar (S2L "C"))) (ELeaf (LLong 3))) (ELeaf (LCoef (S2L "d1"))))))
          (EApp (FN Fmax) [ELeaf (LVar (S2L "A")); EPre (FN Fln) (EPar (ELeaf (LVar (S2L "B"))))] [])))
    (ELeaf (LVar (S2L "D"))).
Example C25_ex :
  lex (S2L "A < -B[-1] - 2*C^3^d1 - max(A, ln(B)) or D") = written c25_tree ++ [T_EOF] /\ reading c25_tree /\
  fst (compile_text (S2L "A < -B[-1] - 2*C^3^d1 - max(A, ln(B)) or D") []) = C_ok (rpn c25_tree ++ [A_EOE]).
Proof.
  split; [reflexivity|]. split; [|reflexivity].
  cbn. repeat (split; [try exact I; try lia; try discriminate|]); try lia; try exact I; discriminate.
Qed.

(** C46: a text accepted by the first stage is empty or the written form of a tree: parentheses match,
    every operator has two operands, every function has a number of arguments within its limits. *)
Theorem C46_accepted_iff : forall text x,
  fst (compile_text text []) = C_ok x <->
  ((lex text = [T_EOF] \/ lex text = [T_EOE]) /\ x = [A_EOE]) \/
  exists e last, reading e /\ (last = T_EOF \/ last = T_EOE) /\ lex text = written e ++ [last] /\ x = rpn e ++ [A_EOE].
Proof.
  intros text x. split.
  - destruct (compile_text text []) as [r o] eqn:E. cbn [fst]. intros ->. pose proof E as E2. apply text_sound in E.
    destruct E as [E|(e & t & R & L & E & X & _)]; [left|right; eauto 8].
    split; [assumption|]. unfold compile_text in E2. destruct E as [E|E]; rewrite E in E2; cbv in E2; congruence.
  - intros [[[E|E] ->]|(e & last & R & L & E & ->)]; [| |eapply C25_compile; eassumption];
      unfold compile_text; rewrite E; reflexivity.
Qed.
Print Assumptions C46_accepted_iff.
Example C46_ex : (exists x, fst (compile_text (S2L "ln (A + sum(1, 2, B))[-1]") []) = C_ok x) /\
  fst (compile_text (S2L "A + * B") []) = C_err /\ fst (compile_text (S2L "ln(A") []) = C_err /\
  fst (compile_text (S2L "ln(A, B)") []) = C_err /\ fst (compile_text (S2L "if(A, B)") []) = C_err.
Proof. split; [eexists; reflexivity|repeat split]. Qed.
(** Texts whose compilation has undefined behaviour ([back()] of an empty vector). *)
Theorem C46_undefined_refuted : fst (compile_text (S2L "(A, B)") []) = C_ub /\ fst (compile_text (S2L "()") []) = C_ub.
Proof. split; reflexivity. Qed.
Print Assumptions C46_undefined_refuted.

(** C26 is false: the operator stack is never cleared, so that a formula rejected earlier changes the
    meaning of a later formula. *)
Theorem C26_history_refuted : exists bad good x,
  fst (compile_text bad (session [])) = C_err /\
  fst (compile_text good (session [])) = C_ok x /\
  fst (compile_text good (session [bad])) <> C_ok x /\
  fst (compile_text good (session [bad])) <> C_err.
Proof. exists (S2L "ln("), (S2L "A"). eexists. repeat split; try reflexivity; discriminate. Qed.
Print Assumptions C26_history_refuted.
(** What is true: after compilations that all succeeded, the result depends on the text only. *)
Theorem C26_after_successes_partial : forall history text,
  (forall before t after, history = before ++ t :: after -> exists x, fst (compile_text t (session before)) = C_ok x) ->
  compile_text text (session history) = compile_text text [].
Proof. exact (fun h text H => f_equal (compile_text text) (session_ok h H)). Qed.
Print Assumptions C26_after_successes_partial.
(** Whatever happened before, one accepted non-empty formula cleans up. *)
Theorem C26_reset_partial : forall history t x text, fst (compile_text t (session history)) = C_ok x ->
  lex t <> [T_EOF] -> lex t <> [T_EOE] ->
  compile_text text (session (history ++ [t])) = compile_text text [].
Proof. exact (fun h t x text H A B => f_equal (compile_text text) (session_reset h t x H A B)). Qed.
Print Assumptions C26_reset_partial.
Example C26_ex : session [S2L "ln("] = [(S_OPENP, 0); (S_F (FN Fln), 1)] /\ session [S2L "ln("; S2L "A"] = [] /\
  fst (compile_text (S2L "A") (session [S2L "ln("])) =
    C_ok [A_VAR (S2L "A") 0 period0; A_OPENP; A_F (FN Fln) 1; A_EOE].
Proof. repeat split; reflexivity. Qed.
