(** Proofs about M_Invert: the solution has a value when the members have one; the whole path to the value. *)
From Coq Require Import ZArith Ascii String List Bool Lia.
From Verif Require Import M_Base M_Time M_Names M_Lex M_Compile M_Bytes M_Exec M_Invert S_Lec S_Eval S_Law S_Invert
  L_Names L_Kdb L_Compile L_Compile2 L_Compile3 L_Bytes L_Exec2 L_Eval L_Law L_Exec L_Invert L_Invert2 L_Invert3 L_Invert4.
Import ListNotations.
Open Scope Z_scope.
Local Arguments Z.add : simpl never.
Local Arguments Z.sub : simpl never.

Section Defined.
Context {A : arith} (E : env A) (rb : str -> list Z) (t : Z).
Notation value := (value A E rb t []).
Notation val e := (value e t).
Definition has (e : ex) : Prop := exists v, val e = Ok v.

Lemma has_bin o a b : match o with Oexp => False | _ => True end -> has a -> has b -> has (EBin o a b).
Proof.
  intros O [u Hu] [w Hw]. unfold has. cbn [S_Eval.value]. rewrite Hu, Hw. cbn [rbind]. unfold op_value.
  destruct (all_num A [u; w]); [|eexists; reflexivity]. destruct o; try contradiction; eexists; reflexivity.
Qed.
Lemma has_fn f e : invertible f = true -> has e -> has (EPre (FN f) e).
Proof.
  intros I [u Hu]. unfold has. rewrite pre_fn, Hu. cbn [rbind]. unfold fn_value.
  destruct (negb (accept_na f) && negb (all_num A [u])); [eexists; reflexivity|].
  destruct f; try discriminate I; try (eexists; reflexivity).
  cbn. destruct (le_f A (max_exp A) u || le_f A u (min_exp A)); [eexists; reflexivity|].
  destruct (le_f A (max_double A) (exp A u) || le_f A (exp A u) (min_double A)); eexists; reflexivity.
Qed.
Lemma bin_has o a b : has (EBin o a b) -> has a /\ has b.
Proof.
  intros [w Hw]. cbn [S_Eval.value] in Hw. unfold has. destruct (val a); try discriminate. cbn [rbind] in Hw.
  destruct (val b); try discriminate. split; eexists; reflexivity.
Qed.
Lemma fn_has f e : has (EPre (FN f) e) -> has e.
Proof. intros [w Hw]. rewrite pre_fn in Hw. unfold has. destruct (val e); try discriminate. eexists; reflexivity. Qed.
Definition changing (f : tfnr) : bool := match f with Fdiff | Fdln | Fgrt | Frapp => true | _ => false end.
Lemma has_past f acc lagged : changing f = true -> has acc -> has lagged -> has (past f acc lagged).
Proof.
  intros C Ha Hl. assert (forall z, has (ELeaf (LLong z))) by (intro; eexists; reflexivity).
  destruct f; try discriminate C; cbn [past]; repeat first [assumption | apply has_bin; [exact Logic.I| |] | apply has_fn; [reflexivity|] | auto].
Qed.
Lemma tfn_has f vs sub : changing f = true -> (exists w, tfn_value A f vs sub t = Ok w) ->
  (exists u, sub t = Ok u) /\ exists u, tfn_value A Flag vs sub t = Ok u.
Proof.
  intros C [w Hw]. destruct f; try discriminate C; cbn [tfn_value] in *; destruct (the_lag A vs) as [k| |]; try discriminate; cbn [rbind] in *;
    (destruct (i32 (t - k)) as [u| |]; try discriminate; cbn [rbind] in *; destruct (sub t); try discriminate; cbn [rbind] in *;
     destruct (sub u); try discriminate; split; eexists; reflexivity).
Qed.
Theorem solve_defined x e : forall acc, isolable x e -> has e -> has acc -> has (solve x acc e).
Proof.
  induction e using ex_ind2; intros acc I He Ha; cbn [isolable solve] in *; auto.
  - destruct I as (I1 & _ & I3). destruct f as [f|f|f]; [| |contradiction].
    + pose proof (fn_has f e He). apply IHe; auto. destruct f; try contradiction; cbn [undo_fn]; try assumption; apply has_fn; auto.
    + assert (C : changing f = true) by (destruct f; try contradiction; reflexivity).
      destruct (tfn_has f [] (value e) C) as [H1 H2].
      { destruct He as [w Hw]. exists w. cbn [S_Eval.value] in Hw. unfold apply in Hw. cbn in Hw. exact Hw. }
      apply IHe; auto. apply has_past; auto.
  - destruct args as [|n [|e [|]]]; try contradiction. destruct sfx; [|contradiction]. destruct f as [f|f|f]; try tauto.
    destruct I as (I1 & _ & I3). assert (C : changing f = true) by (destruct f; try contradiction; reflexivity).
    inversion H as [|? ? _ H2]; subst. inversion H2 as [|? ? IHe _]; subst.
    assert (Q : forall g, val (EApp (TFN g) [n; e] []) = do c <- val n; tfn_value A g [c] (value e) t).
    { intros g. cbn [S_Eval.value]. unfold apply. cbn. destruct (value n t); reflexivity. }
    destruct He as [w Hw]. rewrite Q in Hw. destruct (val n) as [c| |] eqn:Vn; try discriminate. cbn [rbind] in Hw.
    destruct (tfn_has f [c] (value e) C (ex_intro _ w Hw)) as [K1 K2].
    apply IHe; auto. apply has_past; auto. unfold has, lag2. rewrite Q. exact K2.
  - destruct I as (I1 & _ & I3 & I4). destruct (bin_has _ _ _ He) as [Hx Hy].
    destruct (times x e1) eqn:T.
    + apply IHe2; auto. destruct o; try contradiction; cbn [undo_right]; apply has_bin; auto.
    + apply IHe1; auto. destruct o; try contradiction; cbn [undo_left]; try (apply has_bin; auto; fail).
      apply has_fn; [reflexivity|]. apply has_bin; [exact Logic.I| |assumption]. apply has_fn; auto.
Qed.
End Defined.

Section Solved.
Context {A : arith} (X : exact A) (E : env A) (rb : str -> list Z) (t : Z).
Theorem solved text l r x e o a0 b0 : equation text l r -> one_side x l r e o -> isolable x e ->
  settled E rb t x e -> absent x o = true -> inside E x t -> computable E rb l t a0 -> computable E rb r t b0 ->
  exists v, value A E rb t [] (solve x o e) t = Ok v /\
  (size l + size r < 32768 -> size (solve x o e) < 32768 -> steady false [] (solve x o e) = true ->
   inverted_value A E rb text x t = Ok v) /\
  forall a b, value A (assign E x t v) rb t [] l t = Ok a -> num A a = true ->
    value A (assign E x t v) rb t [] r t = Ok b -> num A b = true -> a = b.
Proof.
  intros Q O I S Ab Ins (Fl & Sl & Vl) (Fr & Sr & Vr).
  assert (shape l /\ shape r) as [Hl Hr].
  { destruct Q as (lt & rt & _ & _ & Hl & Hr). split; apply reading_shape; [apply Hl|apply Hr]. }
  assert (W : shape e /\ shape o /\ S_Eval.fits E rb [] e /\ S_Eval.fits E rb [] o /\ has E rb t e /\ has E rb t o /\
    times x e = 1%nat /\ (forall n, In n (tree_names e) \/ In n (tree_names o) -> In n (tree_names l) \/ In n (tree_names r))).
  { unfold has. destruct O as [(T1 & T2 & -> & ->) | (T1 & T2 & -> & ->)]; repeat (split; eauto); tauto. }
  destruct W as (He & Ho & Fe & Fo & De & Do & T & Nm).
  destruct (solve_defined E rb t x e o I De Do) as [v V]. exists v. split; [exact V|]. split.
  - intros S1 S2 St. eapply tree_run with (s := solve x o e); eauto.
    + apply invert_solved with (1 := Q); assumption.
    + apply solve_shape; assumption.
    + intros n Hn. apply Nm. apply solve_names in Hn; tauto.
    + apply solve_fits; assumption.
  - intros a b Va Na Vb Nb.
    assert (M : value A (assign E x t v) rb t [] (solve x o e) t = Ok v).
    { pose proof (solve_mono E rb x t v e o I T S) as M. rewrite V in M.
      assert (K : rle (value A E rb t [] o t) (value A (assign E x t v) rb t [] o t)) by (apply absent_value; exact Ab).
      specialize (M K). apply M. reflexivity. }
    pose proof (assigned E rb x t v Ins) as Vx.
    assert (J : forall w, value A (assign E x t v) rb t [] e t = Ok w -> num A w = true ->
      value A (assign E x t v) rb t [] o t = Ok w).
    { intros w Hw Nw. exact (solve_sound X (assign E x t v) rb t x e o v w I T M Vx Hw Nw). }
    destruct O as [(T1 & T2 & -> & ->) | (T1 & T2 & -> & ->)].
    + rewrite (J a Va Na) in Vb. injection Vb as <-. reflexivity.
    + rewrite (J b Vb Nb) in Va. injection Va as <-. reflexivity.
Qed.
(** Without time function: no condition on the solution. *)
Theorem solved_strict text l r x e o a0 b0 : equation text l r -> one_side x l r e o -> isolable x e ->
  still x e = true -> absent x o = true -> inside E x t -> computable E rb l t a0 -> computable E rb r t b0 ->
  strict l = true -> strict r = true -> 5 * (size l + size r) < 32768 ->
  exists v, inverted_value A E rb text x t = Ok v /\
  forall a b, value A (assign E x t v) rb t [] l t = Ok a -> num A a = true ->
    value A (assign E x t v) rb t [] r t = Ok b -> num A b = true -> a = b.
Proof.
  intros Q O I S Ab Ins Cl Cr Tl Tr Sz.
  assert (shape l /\ shape r) as [Hl Hr].
  { destruct Q as (lt & rt & _ & _ & Hl & Hr). split; apply reading_shape; [apply Hl|apply Hr]. }
  pose proof (size_pos l). pose proof (size_pos r).
  assert (W : shape e /\ shape o /\ strict e = true /\ strict o = true /\ times x e = 1%nat /\ size o + 5 * size e < 32768).
  { destruct O as [(T1 & T2 & -> & ->) | (T1 & T2 & -> & ->)]; repeat (split; auto); lia. }
  destruct W as (He & Ho & Te & To & T & Sz2).
  destruct (solved text l r x e o a0 b0) as (v & V & R & P); auto.
  { apply still_settled; assumption. }
  exists v. split; [|exact P]. apply R.
  - lia.
  - pose proof (solve_size x e o Te). lia.
  - apply strict_steady_shape; [apply solve_shape; assumption|apply solve_strict; assumption].
Qed.
End Solved.

(** The names of the solved form are those of the equation. *)
Lemma loop_keeps_names fuel x names : forall v e expr dup names',
  invert_loop fuel x names v e = Inv expr dup names' -> names' = names.
Proof.
  induction fuel as [|f IH]; intros v e expr dup names' H; cbn [invert_loop] in H; [discriminate|].
  destruct (split_expr (S (length v)) x v) as [| | |op lm rm lhs]; try discriminate; [injection H as <- <- <-; reflexivity|].
  destruct (undo op lm rm lhs e); try discriminate. eapply IH, H.
Qed.
Lemma unknown_no_value A (E : env A) rb text l r x t n : equation text l r ->
  In n (flat_map atom_name (rpn l ++ rpn r)) ->
  (if M_Names.is_coefficient n then scalar E n = None else var_at E n = None) ->
  forall v, inverted_value A E rb text x t <> Ok v.
Proof.
  intros Q I N v H. unfold inverted_value in H. rewrite (invert_equation text l r x Q) in H.
  destruct (invert_members x (rpn l) (rpn r)) as [expr dup names| | | |] eqn:M; try discriminate.
  assert (names = names_of (rpn l ++ rpn r)) as ->.
  { unfold invert_members in M. destruct (_ =? 0) in M; [discriminate|]. destruct (2 <=? _) in M; [injection M; auto|].
    destruct (_ =? 0) in M; eapply loop_keeps_names, M. }
  destruct (encode _ _ _); try discriminate. cbn [rbind] in H.
  destruct (link_names E (names_of (rpn l ++ rpn r))) eqn:L; [|discriminate].
  unfold link_names in L. rewrite forallb_forall in L. specialize (L n).
  unfold names_of in L. rewrite add_names_spec in L. specialize (L (or_introl I)).
  destruct (M_Names.is_coefficient n); rewrite N in L; discriminate.
Qed.
