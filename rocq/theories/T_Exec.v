(** Properties C25, C27-C34, C47: evaluation of LEC formulas, from the text to the value. *)
From Coq Require Import ZArith Ascii String List Bool Lia.
From Verif Require Import M_Base M_Time M_Names M_Lex M_Compile M_Bytes M_Exec M_Double S_Lec S_Eval S_Law
  L_Names L_Compile L_Compile2 L_Compile3 L_Bytes L_Link L_Exec L_Exec2 L_Eval L_Law.
Import ListNotations.
Open Scope Z_scope.

(** * Environment of the examples *)
Definition year_of (y : Z) : period := {| year := y; per := "Y"%char; step := 1 |}.
(** Yearly data from 2000 to 2004; A is NA in 2002; the coefficient k is 3. *)
Definition ex_env : env double := d_env (year_of 2000) 5
  [(S2L "A", [Some 1; Some 5; None; Some 7; Some 2]); (S2L "B", [Some 4; Some 3; Some 9; Some 1; Some 0]);
   (S2L "C", [Some 0; Some 2; Some 9; Some 4; Some 8])] [(S2L "k", Some 3)].
Definition no_reals : str -> list Z := fun _ => repeat 0 8.
Definition run (s : string) (t : Z) : res dbl := evaluate double ex_env no_reals (S2L s) t.
(** Value of the tree. *)
Definition val (e : ex) (t : Z) : res dbl := value double ex_env no_reals t [] e t.
Definition int (z : Z) : res dbl := Ok (d_ofZ z).
Definition NA : res dbl := Ok d_na.
Ltac facts := cbn; repeat split; try lia; try discriminate; try exact I.
Ltac is_formula := split; [facts|exists T_EOF; split; [auto|reflexivity]].
Definition V (s : string) : ex := ELeaf (LVar (S2L s)).
Definition N (n : Z) : ex := ELeaf (LLong n).

(** * C32: byte code *)
(** Compiling, encoding, linking and executing a formula gives the value of its tree, when every function
    is steady: its arguments are delimited for the encoder, linked, and computed away from a pending NA. *)
Theorem C32_evaluate_partial : forall A (E : env A) rb text e t v,
  formula text e -> computable E rb e t v -> steady false [] e = true -> evaluate A E rb text t = Ok v.
Proof. intros A E rb text e t v (R & last & L & X) (Fi & Sz & Va) St. exact (evaluate_ok A E rb text e last t v R X L Fi Sz St Va). Qed.
Print Assumptions C32_evaluate_partial.
Definition c32_text : string := "sum(0, 3-1, B * d(C[+1])) + covar(C, 2*B) * A[2001Y1]".
Definition c32_tree : ex :=
  EBin Oplus
    (EApp (TFN Fsum) [N 0; EBin Ominus (N 3) (N 1);
       EBin Otimes (V "B") (EPre (TFN Fdiff) (EPar (ESfx (V "C") (SLag false 1))))] [])
    (EBin Otimes (EApp (MTFN Fcovar) [V "C"; EBin Otimes (N 2) (V "B")] []) (ESfx (V "A") (SAt (year_of 2001)))).
Lemma dated_years y y' : y <> 0 -> int_range y -> dated (year_of y') (year_of y).
Proof. intros H R. unfold dated, year_of, int_range in *. cbn. repeat split; try lia; try discriminate. eexists. reflexivity. Qed.
Example C32_ex : formula (S2L c32_text) c32_tree /\ steady false [] c32_tree = true /\
  computable ex_env no_reals c32_tree 1 (d_ofZ (-21)) /\ run c32_text 1 = int (-21).
Proof.
  assert (H1 : formula (S2L c32_text) c32_tree) by is_formula.
  assert (H2 : steady false [] c32_tree = true) by reflexivity.
  assert (H3 : computable ex_env no_reals c32_tree 1 (d_ofZ (-21))).
  { split; [|split; [reflexivity|vm_compute; reflexivity]]. facts; try (eexists; reflexivity).
    all: match goal with H : Ok _ = Ok _ |- _ => injection H as <-; lia end. }
  exact (conj H1 (conj H2 (conj H3 (C32_evaluate_partial _ _ _ _ _ _ _ H1 H3 H2)))).
Qed.
(** Missing: formulas that are not steady. The length stored for the argument of a time function is wrong
    when the argument ends with a function of several arguments written without parentheses around it, or
    contains a function of several series: execution leaves the argument. *)
Definition undelimited : ex := EPre (TFN Flag) (EApp (FN Fmax) [V "A"; V "B"] []).
Definition nested : ex := EPre (TFN Fsum) (EPar (EApp (MTFN Fcovar) [V "C"; V "B"] [])).
Theorem C32_refuted :
  (formula (S2L "l max(A,B)") undelimited /\ val undelimited 1 = int 4 /\ run "l max(A,B)" 1 = UB) /\
  (formula (S2L "sum(covar(C,B))") nested /\ val nested 0 = int 0 /\ run "sum(covar(C,B))" 0 = UB).
Proof. repeat split; try (exists T_EOF; split; [auto|reflexivity]); try (vm_compute; reflexivity); facts. Qed.
Print Assumptions C32_refuted.

(** * C25: precedence and associativity *)
(** For formulas made of operators, signs, parentheses, suffixes, and ordinary functions that propagate NA. *)
Theorem C25_evaluate : forall A (E : env A) rb text e t v,
  formula text e -> computable E rb e t v -> strict e = true -> evaluate A E rb text t = Ok v.
Proof.
  intros A E rb text e t v H K S. apply (C32_evaluate_partial A E rb text e t v H K). apply strict_steady; [apply H|exact S].
Qed.
Print Assumptions C25_evaluate.
Definition c25_text : string := "A - B - 2*C^2^k/4 < 7 or -B[-1] = max(A, 3+1, k)".
Definition c25_tree2 : ex :=
  EBin Oor
    (EBin Olt
      (EBin Ominus (EBin Ominus (V "A") (V "B"))
        (EBin Odivide (EBin Otimes (N 2) (EBin Oexp (EBin Oexp (V "C") (N 2)) (ELeaf (LCoef (S2L "k"))))) (N 4)))
      (N 7))
    (EBin Oeq (EPre (FN Fuminus) (ESfx (V "B") (SLag true 1)))
      (EApp (FN Fmax) [V "A"; EBin Oplus (N 3) (N 1); ELeaf (LCoef (S2L "k"))] [])).
Example C25_evaluate_ex : formula (S2L c25_text) c25_tree2 /\ strict c25_tree2 = true /\
  computable ex_env no_reals c25_tree2 3 (d_ofZ 1) /\ run c25_text 3 = int 1 /\
  run "A - B - 2*C^2^k/4" 3 = int (7 - 1 - 2048).
Proof.
  assert (H1 : formula (S2L c25_text) c25_tree2) by is_formula.
  assert (H3 : computable ex_env no_reals c25_tree2 3 (d_ofZ 1)).
  { split; [|split; [reflexivity|vm_compute; reflexivity]]. facts. }
  split; [exact H1|]. split; [reflexivity|]. split; [exact H3|]. split; vm_compute; reflexivity.
Qed.

(** * C27: the value stack *)
(** The code of a formula run in front of any other code, on any stack without NA, leaves the same stack
    with exactly one more value, the value of the formula. *)
Theorem C27_one_value_partial : forall A (E : env A) rb text e t v,
  formula text e -> computable E rb e t v -> steady false [] e = true ->
  exists atoms code0 code, fst (compile_text text []) = C_ok atoms /\
  encode rb (names_of atoms) atoms = Ok code0 /\ link_sample (s_start (smp E)) code0 = Ok code /\
  forall stack more result, forallb (num A) stack = true ->
    let n := Z.of_nat (length code) in let n' := n + Z.of_nat (length more) in
    (forall fuel, n' - n < Z.of_nat fuel -> exec A E (names_of atoms) t fuel (code ++ more) n n' t (v :: stack) = result) ->
    forall fuel, n' < Z.of_nat fuel -> exec A E (names_of atoms) t fuel (code ++ more) 0 n' t stack = result.
Proof.
  intros A E rb text e t v (R & last & L & X) (Fi & Sz & Va) St.
  destruct (code_ok A E rb e t v (reading_shape e R) Fi Sz St Va) as (code0 & code & Ec & Ln & Lk & Pc & G).
  exists (rpn e ++ [A_EOE]), code0, code. split; [|split; [exact Ec|split; [exact Lk|]]].
  { unfold compile_text. rewrite X, (compile_written e last R L []). reflexivity. }
  intros st more result T n n' K fuel Hf.
  assert (T' : tainted A st = false).
  { unfold tainted. clear - T. induction st as [|x st IH]; [reflexivity|]. cbn in *. apply andb_true_iff in T. destruct T as [T1 T2].
    rewrite T1. apply IH, T2. }
  apply (G st T' [] more n' result); rewrite ?len_nil, ?Z.add_0_l; unfold len in *; fold n in Pc |- *; auto; try lia.
Qed.
Print Assumptions C27_one_value_partial.
(** Missing: lcount leaves its arguments on the stack, so that 5 - lcount(A,B) is B - 2. *)
Theorem C27_refuted : run "5 - lcount(A,B)" 0 = int 2 /\ run "lcount(A,B)" 0 = int 2 /\ run "B - 2" 0 = int 2 /\
  (forall A nb s, run_fn A Flcount nb s = Ok (ofZ A nb :: s)).
Proof. split; [vm_compute; reflexivity|]. split; [vm_compute; reflexivity|]. split; [vm_compute; reflexivity|]. reflexivity. Qed.
Print Assumptions C27_refuted.

(** * C28: if and div0 *)
(** The functions use their arguments in another order than documented: the condition of if is its third
    argument, and div0 divides its second argument by the first one. *)
Theorem C28_actual : forall A x y z s,
  run_fn A Fif 3 (z :: y :: x :: s) = Ok ((if num A z && negb (lt A (abs A z) (e15 A)) then x else y) :: s) /\
  (num A x = true -> num A y = true -> tainted A s = false ->
   run_fn A Fdiv0 2 (y :: x :: s) = Ok ((if eq A x (ofZ A 0) then ofZ A 0 else dvd A y x) :: s)).
Proof.
  intros A x y z s. split.
  - cbn. destruct (num A z), (lt A (abs A z) (e15 A)); reflexivity.
  - intros Hx Hy Hs. unfold run_fn.
    replace (tainted A (y :: x :: s)) with false by (unfold tainted in *; cbn; rewrite Hx, Hy, Hs; reflexivity).
    cbn. rewrite Hx, Hy. reflexivity.
Qed.
Print Assumptions C28_actual.
Definition if_tree : ex := EApp (FN Fif) [V "A"; V "B"; V "C"] [].
Definition div_tree : ex := EApp (FN Fdiv0) [V "B"; V "C"] [].
Theorem C28_refuted :
  (formula (S2L "if(A,B,C)") if_tree /\ val if_tree 1 = int 3 /\ run "if(A,B,C)" 1 = int 5) /\
  (formula (S2L "div0(B,C)") div_tree /\ val div_tree 0 = int 0 /\ run "div0(4,8)" 0 = int 2 /\ run "div0(B,C)" 4 = int 0).
Proof. repeat split; try (exists T_EOF; split; [auto|reflexivity]); try (vm_compute; reflexivity); facts. Qed.
Print Assumptions C28_refuted.

(** * C29: propagation of NA *)
Theorem C29_operator : forall A (E : env A) rb text o a b t x y,
  formula text (EBin o a b) -> S_Eval.fits E rb [] (EBin o a b) -> size (EBin o a b) < 32768 ->
  steady false [] (EBin o a b) = true ->
  value A E rb t [] a t = Ok x -> value A E rb t [] b t = Ok y -> num A x && num A y = false ->
  evaluate A E rb text t = Ok (na A).
Proof.
  intros A E rb text o a b t x y H Fi Sz St Hx Hy Q. apply (C32_evaluate_partial A E rb text (EBin o a b)); auto.
  split; [exact Fi|]. split; [exact Sz|]. cbn [value]. rewrite Hx, Hy. cbn [rbind]. unfold op_value. cbn [all_num forallb].
  rewrite andb_true_r, Q. reflexivity.
Qed.
Print Assumptions C29_operator.
(** Ordinary functions of at least two arguments (a one argument function likewise: next theorem). *)
Theorem C29_function : forall A (E : env A) rb text f args t xs,
  formula text (EApp (FN f) args []) -> S_Eval.fits E rb [] (EApp (FN f) args []) -> size (EApp (FN f) args []) < 32768 ->
  steady false [] (EApp (FN f) args []) = true -> accept_na f = false ->
  Forall2 (fun a x => value A E rb t [] a t = Ok x) args xs -> forallb (num A) xs = false ->
  evaluate A E rb text t = Ok (na A).
Proof.
  intros A E rb text f args t xs H Fi Sz St Na Hx Q. apply (C32_evaluate_partial A E rb text (EApp (FN f) args [])); auto.
  split; [exact Fi|]. split; [exact Sz|]. cbn [value]. unfold apply. cbn [bodies].
  assert (Hm : mods [] [] (length args) = repeat [] (length args)).
  { unfold mods. destruct H as [(_ & H & _) _]. cbn [app].
    replace (length args) with (length args - 1 + 1)%nat at 2 by lia. rewrite repeat_app. reflexivity. }
  rewrite Hm.
  assert (Hz : mapM (fun s => s t) (zip (fun e m => value A E rb t m e) args (repeat [] (length args))) = Ok xs /\
    length (zip (fun e m => value A E rb t m e) args (repeat [] (length args))) = length args).
  { clear - Hx. induction Hx as [|a x l m Ha Hl IH]; [split; reflexivity|]. destruct IH as [IH1 IH2].
    cbn [length repeat zip mapM]. rewrite Ha. cbn [rbind]. rewrite IH1. split; [reflexivity|]. cbn. congruence. }
  destruct Hz as [Hz Hl]. rewrite Nat.sub_0_r, firstn_all, Hz. cbn [rbind]. unfold fn_value, all_num. rewrite Na, Q. reflexivity.
Qed.
Print Assumptions C29_function.
Theorem C29_function1 : forall A (E : env A) rb text f a t x,
  formula text (EPre (FN f) a) -> S_Eval.fits E rb [] a -> size (EPre (FN f) a) < 32768 ->
  steady false [] (EPre (FN f) a) = true -> accept_na f = false ->
  value A E rb t [] a t = Ok x -> num A x = false -> evaluate A E rb text t = Ok (na A).
Proof.
  intros A E rb text f a t x H Fi Sz St Na Hx Q. apply (C32_evaluate_partial A E rb text (EPre (FN f) a)); auto.
  split; [exact Fi|]. split; [exact Sz|]. cbn [value]. unfold apply. cbn [bodies length Nat.sub firstn mapM]. rewrite Hx. cbn [rbind].
  unfold fn_value, all_num. cbn [forallb]. rewrite Na, Q. reflexivity.
Qed.
Print Assumptions C29_function1.
Example C29_ex : formula (S2L "max(B, 3, A, C)") (EApp (FN Fmax) [V "B"; N 3; V "A"; V "C"] []) /\
  run "max(B, 3, A, C)" 2 = NA /\ run "B * A" 2 = NA /\ run "abs(A)" 2 = NA /\ run "max(B, 3, A, C)" 1 = int 5.
Proof. repeat split; try (exists T_EOF; split; [auto|reflexivity]); try (vm_compute; reflexivity); facts. Qed.

(** * C47: the value of a subexpression does not depend on what is written before it *)
(** False: a function gives NA when any value waiting on the stack is NA. lmean(A, max(B,C)) is documented to
    ignore a NA argument; here max(B,C) becomes NA because A is NA. *)
Definition ctx_tree : ex := EApp (FN Flmean) [V "A"; EApp (FN Fmax) [V "B"; V "C"] []] [].
Theorem C47_refuted : formula (S2L "lmean(A, max(B,C))") ctx_tree /\ val ctx_tree 2 = int 9 /\
  run "max(B,C)" 2 = int 9 /\ run "lmean(A, max(B,C))" 2 = NA /\ run "lmean(A, 9)" 2 = int 9 /\
  run "A + l(-1, B)" 2 = UB.
Proof. repeat split; try (exists T_EOF; split; [auto|reflexivity]); try (vm_compute; reflexivity); facts. Qed.
Print Assumptions C47_refuted.

(** * C30: lag of an expression *)
(** (e)[-k] at t is e at t-k for the expressions without t, i, absolute period and window function. *)
Theorem C30_lag_partial : forall A (E : env A) rb text text' e (neg : bool) (k t : Z) v v',
  let d := if neg then - k else k in
  formula text e -> formula text' (ESfx (EPar e) (SLag neg k)) -> timeless e = true ->
  computable E rb e (t + d) v -> steady false [] e = true ->
  computable E rb (ESfx (EPar e) (SLag neg k)) t v' -> steady false [] (ESfx (EPar e) (SLag neg k)) = true ->
  evaluate A E rb text' t = evaluate A E rb text (t + d).
Proof.
  intros A E rb text text' e neg k t v v' d H H' T C S C' S'.
  rewrite (C32_evaluate_partial A E rb text e (t + d) v H C S).
  rewrite (C32_evaluate_partial A E rb text' _ t v' H' C' S'). f_equal.
  destruct C as (_ & _ & C). destruct C' as (_ & _ & C'). cbn [value] in C'.
  exact (value_lag A E rb t (t + d) k neg e T [] t eq_refl v' v C' C).
Qed.
Print Assumptions C30_lag_partial.
Definition c30_tree : ex := EBin Oplus (EPre (TFN Fdiff) (EPar (ESfx (V "B") (SLag true 1)))) (EApp (FN Fmax) [V "A"; V "C"] []).
Example C30_ex : formula (S2L "d(B[-1]) + max(A,C)") c30_tree /\
  formula (S2L "(d(B[-1]) + max(A,C))[-1]") (ESfx (EPar c30_tree) (SLag true 1)) /\ timeless c30_tree = true /\
  steady false [] (ESfx (EPar c30_tree) (SLag true 1)) = true /\
  run "(d(B[-1]) + max(A,C))[-1]" 4 = int 13 /\ run "d(B[-1]) + max(A,C)" 3 = int 13.
Proof. repeat split; try (exists T_EOF; split; [auto|reflexivity]); try (vm_compute; reflexivity); facts. Qed.
(** Missing: window functions and t are not lagged, and a lag beyond 32767 periods is stored modulo 65536.
    Without parentheses a lag reaches only the last argument of a function. *)
Theorem C30_refuted :
  run "(sum(B))[-1]" 1 = NA /\ run "sum(B)" 0 = int 4 /\
  run "(B*t)[-1]" 2 = int 6 /\ run "B*t" 1 = int 3 /\
  run "max(A,C)[-1]" 4 = int 4 /\ run "max(A,C)" 3 = int 7.
Proof. repeat split; vm_compute; reflexivity. Qed.
Print Assumptions C30_refuted.

(** * C31: variables outside the sample *)
(** A variable followed by suffixes: the value at the designated position, NA outside the sample. *)
Theorem C31_variable : forall A (E : env A) rb text n sfx t vals,
  lex text = T_VAR n :: flat_map sfx_tokens sfx ++ [T_EOF] ->
  S_Eval.fits E rb sfx (ELeaf (LVar n)) -> var_at E n = Some vals ->
  evaluate A E rb text t =
  match placed sfx with
  | (lag, None) => Ok (at_position A E vals (t + lag))
  | (lag, Some p) => do d <- difference p (s_start (smp E)); Ok (at_position A E vals (d + lag))
  end.
Proof.
  intros A E rb text n sfx t vals X Fi Hv.
  assert (Q : exists v, value A E rb t [] (fold_left ESfx sfx (ELeaf (LVar n))) t = Ok v /\
    match placed sfx with
    | (lag, None) => Ok (at_position A E vals (t + lag))
    | (lag, Some p) => do d <- difference p (s_start (smp E)); Ok (at_position A E vals (d + lag))
    end = Ok v).
  { rewrite value_sfx, app_nil_r. cbn [value leaf_value]. rewrite Hv. cbn [S_Eval.fits] in Fi. destruct Fi as (_ & _ & Fi).
    destruct (placed sfx) as [lag [p|]]; [|eauto]. destruct Fi as ((_ & _ & _ & _ & d & D) & _). rewrite D. cbn [rbind]. eauto. }
  destruct Q as (v & Q1 & Q2). rewrite Q2.
  apply (C32_evaluate_partial A E rb text (fold_left ESfx sfx (ELeaf (LVar n)))).
  - split; [apply reading_sfx; [exact I|reflexivity]|]. exists T_EOF. split; [auto|]. rewrite written_sfx, X. cbn [written leaf_token app]. reflexivity.
  - split; [rewrite fits_sfx, app_nil_r; exact Fi|]. split; [rewrite size_sfx; reflexivity|exact Q1].
  - rewrite steady_sfx. reflexivity.
Qed.
Print Assumptions C31_variable.
Example C31_ex : run "B[-1]" 0 = NA /\ run "B[+2]" 2 = int 0 /\ run "B[+2]" 3 = NA /\ run "B[2003Y1][-1]" 0 = int 1 /\
  run "B[-1][2003Y1]" 4 = int 9 /\ run "B[1999Y1]" 0 = NA.
Proof. repeat split; vm_compute; reflexivity. Qed.
(** Beyond the range of a short the lag wraps around: A[-40000] reads 25536 periods later. *)
Definition long_env : env double := Build_env double (fun _ => Some (fun i => d_ofZ i)) (fun _ => None) (mkS (year_of 1) (year_of 30000) 30000).
Theorem C31_refuted : evaluate double long_env no_reals (S2L "A[-40000]") 0 = int 25536.
Proof. vm_compute. reflexivity. Qed.
Print Assumptions C31_refuted.

(** * C33: windows of time functions *)
(** f(e), f(from, e), f(from, to, e): the aggregate of the values of e over exactly the window. *)
Theorem C33_window : forall A (E : env A) rb text f args e t xs from to vs,
  let tree := EApp (TFN f) (args ++ [e]) [] in
  windowed f = true -> args <> [] ->
  formula text tree -> S_Eval.fits E rb [] tree -> size tree < 32768 -> steady false [] tree = true ->
  Forall2 (fun a x => value A E rb t [] a t = Ok x) args xs -> bounds A xs t = Ok (from, to) ->
  from <= to -> -2147483648 < from -> to < 2147483647 -> to - from < 2147483647 ->
  Forall2 (fun p v => value A E rb t [] e p = Ok v) (seqZ from (Z.to_nat (to - from + 1))) vs ->
  evaluate A E rb text t = Ok (aggregate A f vs).
Proof.
  intros A E rb text f args e t xs from to vs tree W Na H Fi Sz St Hx Hb L1 L2 L3 L4 Hv.
  apply (C32_evaluate_partial A E rb text tree); auto. split; [exact Fi|]. split; [exact Sz|].
  unfold tree. cbn [value]. unfold apply. cbn [bodies].
  assert (Hm : mods [] [] (length (args ++ [e])) = repeat [] (length args) ++ [[]]).
  { unfold mods. rewrite app_length. cbn. replace (length args + 1 - 1)%nat with (length args) by lia. reflexivity. }
  rewrite Hm. clear Hm.
  assert (Hz : mapM (fun s => s t) (zip (fun e m => value A E rb t m e) args (repeat [] (length args))) = Ok xs /\
    zip (fun e m => value A E rb t m e) (args ++ [e]) (repeat [] (length args) ++ [[]]) =
    zip (fun e m => value A E rb t m e) args (repeat [] (length args)) ++ [value A E rb t [] e] /\
    length (zip (fun e m => value A E rb t m e) args (repeat [] (length args))) = length args).
  { clear - Hx. induction Hx as [|a x l m Ha Hl IH]; [repeat split; reflexivity|]. destruct IH as (IH1 & IH2 & IH3).
    cbn [length repeat zip mapM app]. rewrite Ha. cbn [rbind]. rewrite IH1. split; [reflexivity|]. rewrite IH2. split; [reflexivity|]. cbn. congruence. }
  destruct Hz as (Hz & Hz2 & Hl). rewrite Hz2, app_length, Hl. cbn [length].
  replace (length args + 1 - 1)%nat with (length args) by lia.
  revert Hz Hl. generalize (zip (fun e m => value A E rb t m e) args (repeat [] (length args))). intros z Hz Hl.
  rewrite <- Hl, firstn_app, firstn_all, Nat.sub_diag. cbn [firstn]. rewrite app_nil_r, Hz. cbn [rbind].
  rewrite app_nth2, Nat.sub_diag by lia. cbn [nth].
  exact (tfn_window A f xs _ t from to vs W Hb L1 L2 L3 L4 Hv).
Qed.
Print Assumptions C33_window.
(** f(e): from the start of the sample to the current period. *)
Theorem C33_from_start : forall A (E : env A) rb text f e t vs,
  let tree := EPre (TFN f) e in
  windowed f = true ->
  formula text tree -> S_Eval.fits E rb [] tree -> size tree < 32768 -> steady false [] tree = true ->
  0 <= t < 2147483647 ->
  Forall2 (fun p v => value A E rb t [] e p = Ok v) (seqZ 0 (Z.to_nat (t + 1))) vs ->
  evaluate A E rb text t = Ok (aggregate A f vs).
Proof.
  intros A E rb text f e t vs tree W H Fi Sz St L Hv.
  apply (C32_evaluate_partial A E rb text tree); auto. split; [exact Fi|]. split; [exact Sz|].
  unfold tree. cbn [value]. unfold apply. cbn [bodies length Nat.sub firstn mapM rbind nth].
  apply (tfn_window A f [] _ t 0 t vs W); try lia; [reflexivity|]. rewrite Z.sub_0_r. exact Hv.
Qed.
Print Assumptions C33_from_start.
Example C33_ex : run "sum(1, 3, B)" 4 = int 13 /\ run "sum(3, 1, B)" 4 = int 13 /\ run "vmax(1, B)" 3 = int 9 /\
  run "mean(2, C)" 3 = Ok (d_dec 65 1) /\ run "prod(B)" 1 = int 12 /\ run "lastobs(A)" 2 = int 5 /\
  run "sum(1, 3, A)" 4 = NA /\ run "vmin(4, 2, B+C)" 0 = int 5 /\
  formula (S2L "vmin(4, 2, B+C)") (EApp (TFN Fvmin) ([N 4; N 2] ++ [EBin Oplus (V "B") (V "C")]) []) /\
  steady false [] (EApp (TFN Fvmin) ([N 4; N 2] ++ [EBin Oplus (V "B") (V "C")]) []) = true.
Proof. repeat split; try (exists T_EOF; split; [auto|reflexivity]); try (vm_compute; reflexivity); facts. Qed.

(** * C34: series inside functions of several series *)
(** False: the arguments are never linked to the sample, a lag is ignored and a dated variable is read at
    the current period. *)
Definition cov_lag : ex := EApp (MTFN Fcovar) [N 0; N 3; V "C"; ESfx (V "B") (SLag false 1)] [].
Theorem C34_refuted : formula (S2L "covar(0,3,C,B[+1])") cov_lag /\
  run "covar(0,3,C,B[+1])" 3 = run "covar(0,3,C,B)" 3 /\ run "covar(0,3,C,B)" 3 <> val cov_lag 3 /\
  run "app(A, B[2004Y1])" 2 = run "app(A, B[2000Y1])" 2.
Proof.
  split; [is_formula|]. split; [vm_compute; reflexivity|]. split; [vm_compute; discriminate|vm_compute; reflexivity].
Qed.
Print Assumptions C34_refuted.
(** Without lags, dates and period constants in the series, the functions of several series are correct:
    instance of C32. *)
Theorem C34_undated_partial : forall A (E : env A) rb text f args a b t v,
  let tree := EApp (MTFN f) (args ++ [a; b]) [] in
  formula text tree -> computable E rb tree t v -> bodies (MTFN f) = 2%nat ->
  undated [] a = true -> undated [] b = true -> no_mtfn a = true -> no_mtfn b = true ->
  steady false [] a = true -> steady false [] b = true -> forallb strict args = true -> forallb calm args = true ->
  evaluate A E rb text t = Ok v.
Proof.
  intros A E rb text f args a b t v tree H C Hb Ua Ub Na Nb Sa Sb Sargs Cargs. apply (C32_evaluate_partial A E rb text tree); auto.
  destruct H as [R _]. destruct R as (R & Rn & Rm & _). apply reading_all in R. apply Forall_app in R. destruct R as [R _].
  unfold tree. rewrite steady_app. apply andb_true_iff. split; [destruct f; try reflexivity; discriminate Hb|].
  unfold mods, roles. rewrite Hb. rewrite app_length. cbn [length app repeat].
  replace (length args + 2 - 2)%nat with (length args) by lia.
  replace (length args + 2 - 1)%nat with (length args + 1)%nat by lia. rewrite repeat_app, <- app_assoc. cbn [repeat app].
  clear - Ua Ub Na Nb Sa Sb Sargs Cargs R.
  induction args as [|x l IH].
  - cbn. rewrite Ua, Ub, Na, Nb, Sa, Sb. reflexivity.
  - cbn [length repeat app combine zip forallb ok_arg] in *. inversion R; subst.
    apply andb_true_iff in Sargs. apply andb_true_iff in Cargs. destruct Sargs as [S1 S2], Cargs as [C1 C2].
    rewrite (strict_steady x H1 S1), C1, orb_true_r. cbn [andb]. apply IH; assumption.
Qed.
Print Assumptions C34_undated_partial.
Example C34_ex : run "covar(0, 1, C, B)" 4 = Ok (d_dec (-5) 1) /\ run "index(0, 4, B, C)" 2 = int 2.
Proof. split; vm_compute; reflexivity. Qed.
