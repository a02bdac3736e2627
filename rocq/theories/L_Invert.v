(** Proofs about M_Invert: the tree of the solved equation. *)
From Coq Require Import ZArith Ascii String List Bool Lia.
From Verif Require Import M_Base M_Time M_Names M_Lex M_Compile M_Bytes M_Exec M_Invert S_Lec S_Eval S_Law S_Invert
  L_Names L_Kdb L_Compile L_Compile2 L_Compile3 L_Bytes.
Import ListNotations.
Open Scope Z_scope.

(** ** The last sub-expression *)
Definition unit_scan (x : list atom) : Prop :=
  forall rest need, sub_count (rev x ++ rest) 0 need =
    match need with O => Some (length x) | S n => option_map (fun k => (length x + k)%nat) (sub_count rest 0 n) end.
Lemma unit_group x : bal (rev x) -> unit_scan (group x).
Proof.
  intros B rest need. unfold group. cbn [rev]. rewrite rev_app_distr. cbn [rev app sub_count].
  replace (0 <? 0 + 1) with true by reflexivity. rewrite <- app_assoc. rewrite scan_bal by (auto; lia).
  cbn [app sub_count]. replace (0 <? 0 + 1 - 1) with false by reflexivity.
  cbn [length]. rewrite app_length, rev_length. cbn [length].
  destruct need as [|n]; cbn [option_map]; [f_equal; lia|].
  destruct (sub_count rest 0 n); cbn [option_map]; [f_equal; lia|reflexivity].
Qed.
Lemma unit_sfx s x : unit_scan x -> unit_scan (map (sfx_atom s) x).
Proof.
  intros U rest need. rewrite <- map_rev, scan_map by (apply par_sfx || apply sfx_kind). rewrite U, map_length. reflexivity.
Qed.
Lemma unit_plain e : plain e = true -> shape e -> unit_scan (rpn e).
Proof.
  induction e using ex_ind2; intros P S; cbn [plain shape rpn] in *; try discriminate.
  - intros rest need. destruct l; destruct need; reflexivity.
  - apply unit_group, bal_rpn.
  - apply unit_sfx.
    assert (Q : level e = 9 -> plain e = true) by (destruct e; cbn; try reflexivity; try lia; destruct o; discriminate).
    apply IHe; [apply Q|]; tauto.
  - intros rest need. rewrite rev_app_distr, app_length. cbn [rev app sub_count length].
    replace (0 <? 0) with false by reflexivity. rewrite IHe by tauto.
    destruct need; cbn [option_map]; [f_equal; lia|]. destruct (sub_count rest 0 need); cbn [option_map]; [f_equal; lia|reflexivity].
  - intros rest need. apply andb_true_iff in P. rewrite !rev_app_distr, !app_length. cbn [rev app sub_count length].
    replace (0 <? 0) with false by reflexivity. rewrite <- app_assoc. rewrite IHe2 by tauto. rewrite IHe1 by tauto.
    destruct need; cbn [option_map]; [f_equal; lia|]. destruct (sub_count rest 0 need); cbn [option_map]; [f_equal; lia|reflexivity].
Qed.

(** ** Splitting *)
Lemma removelast_len {X} (l : list X) : length (removelast l) = (length l - 1)%nat.
Proof. induction l as [|a [|b l] IH]; [reflexivity|reflexivity|]. cbn [removelast length] in *. lia. Qed.
Lemma split_fuel : forall f g x v, (length v < f)%nat -> (length v < g)%nat -> split_expr f x v = split_expr g x v.
Proof.
  induction f as [|f IH]; intros g x v Hf Hg; [lia|]. destruct g as [|g]; [lia|].
  cbn [split_expr]. destruct (rev v) as [|a r] eqn:E; [reflexivity|].
  destruct a; try reflexivity. destruct v as [|b [|c v]]; [discriminate|reflexivity|].
  apply IH; rewrite removelast_len; cbn [tl length] in *; lia.
Qed.
Lemma tl_group x : removelast (tl (group x)) = x.
Proof. unfold group. cbn [tl]. apply removelast_last. Qed.
Lemma split_group f g x v : v <> [] -> (length (group v) < f)%nat -> (length v < g)%nat ->
  split_expr f x (group v) = split_expr g x v.
Proof.
  intros N Hf Hg. destruct f as [|f]; [lia|]. cbn [split_expr]. 
  replace (rev (group v)) with (A_CLOSEP :: rev v ++ [A_OPENP]) by (unfold group; cbn [rev]; rewrite rev_app_distr; reflexivity).
  assert (L : (2 <= length (group v))%nat) by (unfold group; cbn [length]; rewrite app_length; cbn; lia).
  destruct (group v) as [|b [|c l]] eqn:G; [cbn in L; lia|cbn in L; lia|]. rewrite <- G in *. rewrite tl_group.
  unfold group in Hf. cbn [length] in Hf. rewrite app_length in Hf. cbn [length] in Hf.
  apply split_fuel; lia.
Qed.
Lemma loop_group n x names v e : v <> [] ->
  invert_loop n x names (group v) e = invert_loop n x names v e.
Proof.
  intros N. destruct n as [|n]; [reflexivity|]. cbn [invert_loop].
  rewrite (split_group _ (S (length v)) x v); auto; lia.
Qed.
Lemma split_op x op l r : (match op with A_OP _ | A_F _ _ => True | _ => False end) -> unit_scan r ->
  split_expr (S (length (l ++ r ++ [op]))) x (l ++ r ++ [op]) = Sp op l r (0 <? count_endo x l).
Proof.
  intros O U. cbn [split_expr]. rewrite !rev_app_distr. cbn [rev app].
  assert (Q : sub_count (rev r ++ rev l) 0 0 = Some (length r)) by apply (U (rev l) 0%nat).
  destruct op; try contradiction;
    (rewrite Q; cbv zeta; rewrite <- (rev_length r); rewrite skipn_app, firstn_app, Nat.sub_diag, skipn_all, firstn_all;
     cbn [firstn skipn app]; rewrite app_nil_r, !rev_involutive; reflexivity).
Qed.

(** ** Occurrences *)
Lemma here_endo x a : is_endo x a = here x a.
Proof. destruct a; try reflexivity. cbn. f_equal. apply andb_comm. Qed.
Lemma count_times x l : count_endo x l = Z.of_nat (length (filter (here x) l)).
Proof. unfold count_endo. do 2 f_equal. apply filter_ext, here_endo. Qed.
Lemma count_rpn x e : count_endo x (rpn e) = Z.of_nat (times x e).
Proof. apply count_times. Qed.
Lemma filter_app {X} (f : X -> bool) a b : filter f (a ++ b) = filter f a ++ filter f b.
Proof. induction a as [|y a IH]; [reflexivity|]. cbn. rewrite IH. destruct (f y); reflexivity. Qed.
Lemma times_par x e : times x (EPar e) = times x e.
Proof. unfold times. cbn [rpn]. unfold group. cbn [filter here]. rewrite filter_app, app_length. cbn. lia. Qed.
Lemma times_pre x f e : times x (EPre f e) = times x e.
Proof. unfold times. cbn [rpn]. rewrite filter_app, app_length. cbn. lia. Qed.
Lemma times_bin x o a b : times x (EBin o a b) = (times x a + times x b)%nat.
Proof. unfold times. cbn [rpn]. rewrite !filter_app, !app_length. cbn. lia. Qed.
Lemma times_app2 x f n e : times x (EApp f [n; e] []) = (times x n + times x e)%nat.
Proof.
  unfold times. cbn [rpn map groups sfx_all fold_left]. rewrite !filter_app, !app_length. unfold group.
  cbn [filter here]. rewrite !filter_app, !app_length. cbn. lia.
Qed.

(** ** The solution *)
Definition lag1 (e : ex) : ex := EPre (TFN Flag) e.
Definition lag2 (n e : ex) : ex := EApp (TFN Flag) [n; e] [].
Definition past (f : tfnr) (acc lagged : ex) : ex :=
  match f with
  | Fdiff => EBin Oplus acc lagged
  | Fdln => EPre (FN Fexpn) (EBin Oplus acc (EPre (FN Fln) lagged))
  | Fgrt => EBin Otimes (EBin Oplus (EBin Odivide acc (ELeaf (LLong 100))) (ELeaf (LLong 1))) lagged
  | _ => EBin Otimes acc lagged
  end.
Definition undo_fn (f : fnr) (acc : ex) : ex :=
  match f with
  | Fln => EPre (FN Fexpn) acc | Fexpn => EPre (FN Fln) acc | Fuminus => EPre (FN Fuminus) acc
  | Fcos => EPre (FN Facos) acc | Fsin => EPre (FN Fasin) acc | Ftan => EPre (FN Fatan) acc
  | _ => acc
  end.
Definition undo_left (o : opr) (acc b : ex) : ex :=
  match o with
  | Oplus => EBin Ominus acc b | Ominus => EBin Oplus acc b | Otimes => EBin Odivide acc b | Odivide => EBin Otimes acc b
  | _ => EPre (FN Fexpn) (EBin Odivide (EPre (FN Fln) acc) b)
  end.
Definition undo_right (o : opr) (acc a : ex) : ex :=
  match o with
  | Oplus => EBin Ominus acc a | Ominus => EBin Ominus a acc | Otimes => EBin Odivide acc a | _ => EBin Odivide a acc
  end.
Fixpoint solve (x : str) (acc e : ex) : ex :=
  match e with
  | EPar e => solve x acc e
  | EPre (FN f) e => solve x (undo_fn f acc) e
  | EPre (TFN f) e => solve x (past f acc (lag1 e)) e
  | EApp (TFN f) [n; e] _ => solve x (past f acc (lag2 n e)) e
  | EBin o a b =>
    match times x a with
    | O => solve x (undo_right o acc a) b
    | _ => solve x (undo_left o acc b) a
    end
  | _ => acc
  end.

Lemma rpn_nonempty e : shape e -> rpn e <> [].
Proof.
  induction e using ex_ind2; cbn [rpn shape]; intros S K; try discriminate.
  - apply map_eq_nil in K. tauto.
  - apply app_eq_nil in K. destruct K; discriminate.
  - apply app_eq_nil in K. destruct K; discriminate.
  - apply app_eq_nil in K. destruct K as [_ K]. apply app_eq_nil in K. destruct K; discriminate.
Qed.
Theorem loop_solved x names e : forall n acc, shape e -> isolable x e -> times x e = 1%nat -> (length (rpn e) < n)%nat ->
  invert_loop n x names (rpn e) (rpn acc) = Inv (rpn (solve x acc e) ++ [A_EOE]) false names.
Proof.
  induction e using ex_ind2; intros n acc S I T L; (destruct n as [|n]; [lia|]); cbn [isolable shape] in *.
  - cbn [rpn invert_loop length]. destruct l; try discriminate T. reflexivity.
  - cbn [rpn solve]. rewrite loop_group by (apply rpn_nonempty; assumption). rewrite times_par in T. apply IHe; auto.
    cbn [rpn] in L. unfold group in L. cbn [length] in L. rewrite app_length in L. cbn in L. lia.
  - contradiction.
  - destruct I as (I1 & I2 & I3). destruct S as [S1 S2]. rewrite times_pre in T.
    cbn [rpn] in *. rewrite app_length in L. cbn [length] in L. cbn [invert_loop].
    pose proof (split_op x (A_F f 1) [] (rpn e) Logic.I (unit_plain e I2 S1)) as Q. cbn [app] in Q. rewrite Q. clear Q.
    change (count_endo x []) with 0. cbn [Z.ltb Z.compare].
    destruct f as [f|f|f]; try contradiction; destruct f; try contradiction; cbn [undo solve undo_fn past];
      unfold lag_of; cbn [Z.eqb app Pos.eqb];
      match goal with |- invert_loop n x names _ ?e' = Inv (rpn (solve x ?a _) ++ _) _ _ =>
        replace e' with (rpn a) by (cbn [rpn lag1 leaf_atom]; rewrite <- ?app_assoc; reflexivity) end;
      apply IHe; auto; lia.
  - destruct args as [|n0 [|e [|]]]; try contradiction. destruct sfx; [|contradiction].
    destruct I as (I1 & I2 & I3). destruct S as (S1 & S2 & S3). rewrite times_app2 in T.
    inversion H as [|? ? _ H2]; subst. inversion H2 as [|? ? He _]; subst.
    cbn [rpn map groups length invert_loop] in *. unfold sfx_all in *. cbn [fold_left] in *.
    rewrite <- app_assoc. change (Z.of_nat 2) with 2.
    rewrite (split_op x (A_F f 2) (group (rpn n0)) (group (rpn e)) Logic.I (unit_group _ (bal_rpn e))).
    replace (count_endo x (group (rpn n0))) with 0
      by (change (group (rpn n0)) with (rpn (EPar n0)); rewrite count_rpn, times_par, I2; reflexivity).
    cbn [Z.ltb Z.compare].
    destruct f as [f|f|f]; try contradiction; destruct f; try contradiction; cbn [undo solve past];
      unfold lag_of; cbn [Z.eqb app Pos.eqb];
      match goal with |- invert_loop n x names _ ?e' = Inv (rpn (solve x ?a _) ++ _) _ _ =>
        replace e' with (rpn a)
          by (cbn [rpn lag2 leaf_atom map groups sfx_all fold_left length]; change (Z.of_nat 2) with 2; rewrite <- ?app_assoc; reflexivity) end;
      rewrite loop_group by (apply rpn_nonempty; tauto);
      apply He; auto; try tauto; unfold group in L; rewrite !app_length in L; cbn [length app] in L;
      rewrite !app_length in L; cbn [length] in L; lia.
  - destruct I as (I1 & I2 & I3 & I4). destruct S as [S1 S2]. rewrite times_bin in T.
    cbn [rpn invert_loop] in *. rewrite !app_length in L. cbn [length] in L.
    rewrite (split_op x (A_OP o) (rpn e1) (rpn e2) Logic.I (unit_plain e2 I2 S2)).
    rewrite count_rpn. cbn [solve]. destruct (times x e1) as [|k] eqn:T1.
    + cbn [Z.of_nat Z.ltb Z.compare].
      destruct o; try contradiction; try (exfalso; lia); cbn [undo undo_right];
      match goal with |- invert_loop n x names _ ?e' = Inv (rpn (solve x ?a _) ++ _) _ _ =>
        replace e' with (rpn a) by (cbn [rpn]; rewrite <- ?app_assoc; reflexivity) end;
      apply IHe2; auto; lia.
    + replace (0 <? Z.of_nat (S k)) with true by (symmetry; apply Z.ltb_lt; lia).
      destruct o; try contradiction; cbn [undo undo_left];
      match goal with |- invert_loop n x names _ ?e' = Inv (rpn (solve x ?a _) ++ _) _ _ =>
        replace e' with (rpn a) by (cbn [rpn]; rewrite <- ?app_assoc; reflexivity) end;
      apply IHe1; auto; lia.
Qed.

(** ** The text *)
Lemma split_eq_first lt rt : (forall a b, lt ++ S2L ":" <> a ++ S2L ":=" ++ b) ->
  split_eq (lt ++ S2L ":=" ++ rt) = Some (lt, rt).
Proof.
  induction lt as [|c lt IH]; intros N; [reflexivity|].
  assert (N' : forall a b, lt ++ S2L ":" <> a ++ S2L ":=" ++ b).
  { intros a b K. apply (N (c :: a) b). cbn. f_equal. exact K. }
  specialize (IH N'). 
  destruct (lt ++ S2L ":=" ++ rt) as [|d s] eqn:E; [destruct lt; discriminate|].
  cbn [app]. rewrite E.
  change (split_eq (c :: d :: s)) with
    (if (code c =? 58) && (code d =? 61) then Some ([], s)
     else match split_eq (d :: s) with Some (l, r) => Some (c :: l, r) | None => None end).
  assert (D : (code c =? 58) && (code d =? 61) = false).
  { destruct ((code c =? 58) && (code d =? 61)) eqn:Q; [exfalso|reflexivity]. apply andb_true_iff in Q. destruct Q as [Q1 Q2].
    apply Z.eqb_eq in Q1. apply Z.eqb_eq in Q2.
    assert (C : c = ":"%char) by (apply code_inj; exact Q1).
    assert (D : d = "="%char) by (apply code_inj; exact Q2).
    subst. destruct lt as [|d' lt]; [cbn in E; discriminate E|]. cbn in E. injection E as -> _.
    apply (N [] (lt ++ S2L ":")). reflexivity. }
  rewrite D, IH. reflexivity.
Qed.
Lemma formula_compiled text e : formula text e -> compile_text text [] = (C_ok (rpn e ++ [A_EOE]), []).
Proof.
  intros (R & last & L & X). unfold compile_text. rewrite X. apply compile_written; assumption.
Qed.
Lemma invert_equation text l r x : equation text l r -> invert text x [] = invert_members x (rpn l) (rpn r).
Proof.
  intros (lt & rt & -> & N & Hl & Hr). unfold invert. rewrite split_eq_first by exact N.
  rewrite (formula_compiled lt l Hl), removelast_last.
  destruct (rpn l) as [|a m] eqn:E; [exfalso; apply (rpn_nonempty l); [apply reading_shape, Hl|exact E]|]. rewrite <- E.
  rewrite (formula_compiled rt r Hr), removelast_last. reflexivity.
Qed.
Theorem invert_solved text l r x e o : equation text l r -> one_side x l r e o -> isolable x e ->
  invert text x [] = Inv (rpn (solve x o e) ++ [A_EOE]) false (names_of (rpn l ++ rpn r)).
Proof.
  intros Q O I. rewrite (invert_equation text l r x Q).
  assert (shape l /\ shape r) as [Sl Sr].
  { destruct Q as (lt & rt & _ & _ & Hl & Hr). split; apply reading_shape; [apply Hl|apply Hr]. }
  unfold invert_members. rewrite !count_rpn.
  destruct O as [(T1 & T2 & -> & ->) | (T1 & T2 & -> & ->)]; rewrite T1, T2; apply loop_solved; auto.
Qed.
Theorem invert_several text l r x : equation text l r -> (2 <= times x l + times x r)%nat ->
  invert text x [] = Inv (rpn (EBin Ominus l r) ++ [A_EOE]) true (names_of (rpn l ++ rpn r)).
Proof.
  intros Q O. rewrite (invert_equation text l r x Q). unfold invert_members. rewrite !count_rpn.
  destruct (Z.eqb_spec (Z.of_nat (times x l) + Z.of_nat (times x r)) 0); [lia|].
  destruct (Z.leb_spec 2 (Z.of_nat (times x l) + Z.of_nat (times x r))); [|lia].
  cbn [rpn]. rewrite <- !app_assoc. reflexivity.
Qed.
Theorem invert_absent text l r x : equation text l r -> times x l = 0%nat -> times x r = 0%nat -> invert text x [] = Inv_err.
Proof. intros Q T1 T2. rewrite (invert_equation text l r x Q). unfold invert_members. rewrite !count_rpn, T1, T2. reflexivity. Qed.
