(** Proofs about M_Invert: the inversion of accepted members ends with a result or an error. *)
From Coq Require Import ZArith Ascii String List Bool Lia.
From Verif Require Import M_Base M_Time M_Names M_Lex M_Compile M_Bytes M_Exec M_Invert S_Lec S_Eval S_Law S_Invert
  L_Names L_Kdb L_Compile L_Compile2 L_Compile3 L_Bytes L_Invert.
Import ListNotations.
Open Scope Z_scope.

(** Complete sub-expressions, and sequences of them. *)
Definition leafy (a : atom) : bool :=
  match a with A_REAL _ | A_LONG _ | A_COEF _ | A_VAR _ _ _ | A_PERIOD _ | A_VAL _ => true | _ => false end.
Inductive item : list atom -> Prop :=
| I_leaf a : leafy a = true -> item [a]
| I_group s : seqn s -> item (group s)
| I_fn x f n : item x -> item (x ++ [A_F f n])
| I_op x y o : item x -> item y -> item (x ++ y ++ [A_OP o])
with seqn : list atom -> Prop :=
| S_one x : item x -> seqn x
| S_more s x : seqn s -> item x -> seqn (s ++ x).
Scheme item_mut := Induction for item Sort Prop
with seqn_mut := Induction for seqn Sort Prop.
Combined Scheme item_seqn from item_mut, seqn_mut.

Lemma seqn_app a b : seqn a -> seqn b -> seqn (a ++ b).
Proof.
  intros A B. induction B as [x H|s x B IH H]; [apply S_more; assumption|].
  rewrite app_assoc. apply S_more; assumption.
Qed.
Lemma seqn_fn s f n : seqn s -> seqn (s ++ [A_F f n]).
Proof.
  intros S. destruct S as [x H|s x S H]; [apply S_one, I_fn, H|].
  rewrite <- app_assoc. apply S_more; [assumption|apply I_fn, H].
Qed.
Lemma seqn_op1 s y o : seqn s -> item y -> seqn (s ++ y ++ [A_OP o]).
Proof.
  intros S I. destruct S as [x H|s x S H]; [apply S_one, I_op; assumption|].
  rewrite <- app_assoc. apply S_more; [assumption|apply I_op; assumption].
Qed.
Lemma seqn_op a b o : seqn a -> seqn b -> seqn (a ++ b ++ [A_OP o]).
Proof.
  intros A B. destruct B as [x H|s x B H]; [apply seqn_op1; assumption|].
  rewrite <- app_assoc, app_assoc. apply seqn_op1; [apply seqn_app|]; assumption.
Qed.
Lemma map_group f s : (forall a, par_of a <> 0 -> f a = a) -> map f (group s) = group (map f s).
Proof. intros H. unfold group. cbn [map]. rewrite map_app. cbn [map]. rewrite !H by discriminate. reflexivity. Qed.
Lemma sfx_par s a : par_of a <> 0 -> sfx_atom s a = a.
Proof. destruct s; destruct a; cbn; try congruence. Qed.
Lemma sfx_item s : (forall x, item x -> item (map (sfx_atom s) x)) /\ (forall x, seqn x -> seqn (map (sfx_atom s) x)).
Proof.
  apply item_seqn.
  - intros a L. cbn [map]. apply I_leaf.
    destruct s; destruct a; cbn in *; auto; destruct (step _ =? 0); reflexivity.
  - intros x _ H. rewrite map_group by apply sfx_par. apply I_group, H.
  - intros x f n _ H. rewrite map_app. replace (map (sfx_atom s) [A_F f n]) with [A_F f n] by (destruct s; reflexivity).
    apply I_fn, H.
  - intros x y o _ Hx _ Hy. rewrite !map_app. replace (map (sfx_atom s) [A_OP o]) with [A_OP o] by (destruct s; reflexivity).
    apply I_op; assumption.
  - intros x _ H. apply S_one, H.
  - intros x y _ Hx _ Hy. rewrite map_app. apply S_more; assumption.
Qed.
Lemma sfx_all_item sfx x : item x -> item (sfx_all sfx x).
Proof.
  unfold sfx_all. revert x. induction sfx as [|s l IH]; intros x H; [exact H|]. cbn [fold_left]. apply IH, sfx_item, H.
Qed.
Lemma groups_seqn sfx : forall l, l <> [] -> Forall seqn l -> seqn (groups sfx l).
Proof.
  induction l as [|x l IH]; intros N F; [congruence|]. inversion F; subst. destruct l as [|y l].
  - cbn [groups]. apply S_one, sfx_all_item, I_group. assumption.
  - change (groups sfx (x :: y :: l)) with (group x ++ groups sfx (y :: l)).
    apply seqn_app; [apply S_one, I_group; assumption|]. apply IH; [discriminate|assumption].
Qed.
Lemma rpn_seqn e : shape e -> seqn (rpn e).
Proof.
  induction e using ex_ind2; cbn [shape rpn]; intros S.
  - apply S_one, I_leaf. destruct l; reflexivity.
  - apply S_one, I_group, IHe, S.
  - apply sfx_item, IHe, S.
  - apply seqn_fn, IHe, S.
  - rewrite shape_all in S. destruct S as (Sa & L & _). apply seqn_fn, groups_seqn.
    + destruct args; [cbn in L; lia|discriminate].
    + apply Forall_map. rewrite Forall_forall in *. auto.
  - apply seqn_op; [apply IHe1|apply IHe2]; apply S.
Qed.

(** The end of a list that ends with a complete sub-expression is found. *)
Lemma item_bal : (forall x, item x -> bal (rev x)) /\ (forall x, seqn x -> bal (rev x)).
Proof.
  apply item_seqn.
  - intros a L. apply bal_single. destruct a; try discriminate; reflexivity.
  - intros s _ H. rewrite group_rev. apply bal_group, H.
  - intros x f n _ H. rewrite rev_app_distr. apply bal_app; [apply bal_single; reflexivity|assumption].
  - intros x y o _ Hx _ Hy. rewrite !rev_app_distr. apply bal_app; [apply bal_app; [apply bal_single; reflexivity|exact Hy]|exact Hx].
  - auto.
  - intros x y _ Hx _ Hy. rewrite rev_app_distr. apply bal_app; assumption.
Qed.
Lemma item_scan x : item x -> unit_scan x.
Proof.
  induction 1 as [a L|s S|x f n I IH|x y o Ix IHx Iy IHy].
  - intros rest need. destruct a; try discriminate; destruct need; reflexivity.
  - apply unit_group, item_bal, S.
  - intros rest need. rewrite rev_app_distr, app_length. cbn [rev app sub_count length].
    replace (0 <? 0) with false by reflexivity. rewrite IH.
    destruct need; cbn [option_map]; [f_equal; lia|]. destruct (sub_count rest 0 need); cbn [option_map]; [f_equal; lia|reflexivity].
  - intros rest need. rewrite !rev_app_distr, !app_length. cbn [rev app sub_count length].
    replace (0 <? 0) with false by reflexivity. rewrite <- app_assoc. rewrite IHy, IHx.
    destruct need; cbn [option_map]; [f_equal; lia|]. destruct (sub_count rest 0 need); cbn [option_map]; [f_equal; lia|reflexivity].
Qed.

(** The lists met by the loop: complete sub-expressions after the start or after an open parenthesis. *)
Inductive met : list atom -> Prop :=
| M_nil : met []
| M_open j : met (j ++ [A_OPENP])
| M_item v x : met v -> item x -> met (v ++ x).
Lemma met_seqn v s : met v -> seqn s -> met (v ++ s).
Proof.
  intros M S. induction S as [x H|s x S IH H]; [apply M_item; assumption|].
  rewrite app_assoc. apply M_item; assumption.
Qed.

Definition no_inverse (v : list atom) : Prop := exists n, In (A_F (FN Fsqrt) n) v \/ In (A_F (FN Flog) n) v.
Definition fair (v : list atom) (o : inv) : Prop :=
  o <> Inv_ub /\ o <> Inv_unmodelled /\ (o = Inv_throw -> no_inverse v).
Lemma fair_sub v w o : incl v w -> fair v o -> fair w o.
Proof.
  intros I (A & B & C). split; [exact A|]. split; [exact B|]. intros T. destruct (C T) as [n H]. exists n.
  destruct H; [left|right]; apply I; assumption.
Qed.
Lemma fair_err v : fair v Inv_err.
Proof. repeat split; discriminate. Qed.
Lemma fair_inv v e d names : fair v (Inv e d names).
Proof. repeat split; discriminate. Qed.

Lemma split_close w s f g x : (length (w ++ group s) < f)%nat -> (length (tl (w ++ [A_OPENP]) ++ s) < g)%nat ->
  split_expr f x (w ++ group s) = split_expr g x (tl (w ++ [A_OPENP]) ++ s).
Proof.
  intros Hf Hg. destruct f as [|f]; [lia|]. cbn [split_expr]. rewrite rev_app_distr, group_rev. cbn [app].
  assert (L : (2 <= length (w ++ group s))%nat) by (rewrite app_length; unfold group; cbn [length]; rewrite app_length; cbn; lia).
  assert (T : removelast (tl (w ++ group s)) = tl (w ++ [A_OPENP]) ++ s).
  { destruct w as [|a w]; [cbn [app]; rewrite tl_group; reflexivity|]. cbn [app tl]. unfold group.
    replace (w ++ A_OPENP :: s ++ [A_CLOSEP]) with (((w ++ [A_OPENP]) ++ s) ++ [A_CLOSEP])
      by (rewrite <- !app_assoc; reflexivity).
    apply removelast_last. }
  destruct (w ++ group s) as [|b [|c l]] eqn:G; [cbn in L; lia|cbn in L; lia|]. rewrite T.
  apply split_fuel; [|exact Hg]. rewrite <- T, removelast_len. cbn [tl length] in *. lia.
Qed.
Lemma loop_safe x names : forall m n v e, (length v <= m)%nat -> (length v < n)%nat -> met v ->
  fair v (invert_loop n x names v e).
Proof.
  induction m as [|m IH]; intros n v e Hm Hn M.
  { destruct v; [|cbn in Hm; lia]. destruct n as [|n]; [lia|]. cbn. apply fair_err. }
  destruct n as [|n]; [lia|]. destruct M as [|j|v y M I].
  - cbn. apply fair_err.
  - cbn [invert_loop split_expr]. rewrite rev_app_distr. cbn. apply fair_err.
  - destruct I as [a L|s Sq|y f k I|y z o Iy Iz].
    + cbn [invert_loop split_expr]. rewrite rev_app_distr. cbn [rev app].
      destruct a; try discriminate; try apply fair_err; try apply fair_inv.
      destruct (sub_count (rev v) 0 0); [cbn [undo]|]; apply fair_err.
    + cbn [invert_loop]. assert (N : met (tl (v ++ [A_OPENP]) ++ s)).
      { apply met_seqn; [|exact Sq]. destruct v as [|a v]; [apply M_nil|]. cbn [app tl]. apply M_open. }
      assert (L : (S (length (tl (v ++ [A_OPENP]) ++ s)) < length (v ++ group s))%nat).
      { rewrite !app_length. unfold group. cbn [length]. rewrite app_length. cbn [length].
        destruct v as [|a v]; cbn [app tl length]; [lia|]. rewrite app_length. cbn [length]. lia. }
      rewrite (split_close v s _ (S (length (tl (v ++ [A_OPENP]) ++ s)))) by lia.
      assert (G : fair (tl (v ++ [A_OPENP]) ++ s) (invert_loop (S n) x names (tl (v ++ [A_OPENP]) ++ s) e)).
      { apply IH; [lia|lia|exact N]. }
      cbn [invert_loop] in G. eapply fair_sub; [|exact G].
      intros a Ha. apply in_app_iff in Ha. apply in_app_iff. destruct Ha as [Ha|Ha].
      * destruct v as [|b v]; [destruct Ha|]. cbn [app tl] in Ha. apply in_app_iff in Ha. destruct Ha as [Ha|[<-|[]]].
        -- left. right. exact Ha.
        -- right. left. reflexivity.
      * right. right. apply in_app_iff. left. exact Ha.
    + cbn [invert_loop]. rewrite split_op by (auto; apply item_scan, I).
      assert (K : forall e', fair (v ++ y ++ [A_F f k])
                    (invert_loop n x names (if 0 <? count_endo x v then v else y) e')).
      { intros e'. rewrite !app_length in Hm, Hn. cbn [length] in Hm, Hn.
        destruct (0 <? count_endo x v).
        - eapply fair_sub; [|apply IH; [lia|lia|exact M]]. intros a Ha. apply in_app_iff. left. exact Ha.
        - eapply fair_sub; [|apply IH; [lia|lia|exact (M_item [] y M_nil I)]].
          intros a Ha. apply in_app_iff. right. apply in_app_iff. left. exact Ha. }
      assert (T : f = FN Fsqrt \/ f = FN Flog -> fair (v ++ y ++ [A_F f k]) Inv_throw).
      { intros Hf. split; [discriminate|]. split; [discriminate|]. intros _. exists k.
        destruct Hf as [-> | ->]; [left|right]; apply in_app_iff; right; apply in_app_iff; right; left; reflexivity. }
      destruct f as [f|f|f]; cbn [undo]; try apply fair_err; destruct f; cbn [undo];
        first [apply fair_err | apply K | apply T; auto].
    + cbn [invert_loop]. rewrite app_assoc.
      rewrite split_op by (auto; apply item_scan, Iz).
      assert (K : forall e', fair ((v ++ y) ++ z ++ [A_OP o])
                    (invert_loop n x names (if 0 <? count_endo x (v ++ y) then v ++ y else z) e')).
      { intros e'. rewrite !app_length in Hm, Hn. cbn [length] in Hm, Hn.
        destruct (0 <? count_endo x (v ++ y)).
        - eapply fair_sub; [|apply IH; [rewrite app_length; lia|rewrite app_length; lia|exact (M_item v y M Iy)]].
          intros a Ha. apply in_app_iff. left. exact Ha.
        - eapply fair_sub; [|apply IH; [lia|lia|exact (M_item [] z M_nil Iz)]].
          intros a Ha. apply in_app_iff. right. apply in_app_iff. left. exact Ha. }
      destruct o; cbn [undo]; first [apply fair_err | apply K].
Qed.

Lemma members_fair x lm rm : (lm = [] \/ seqn lm) -> (rm = [] \/ seqn rm) -> fair (lm ++ rm) (invert_members x lm rm).
Proof.
  assert (M : forall s, s = [] \/ seqn s -> met s) by (intros s [-> |S]; [apply M_nil|exact (met_seqn [] s M_nil S)]).
  intros L R. unfold invert_members.
  destruct (_ =? 0); [apply fair_err|]. destruct (2 <=? _); [apply fair_inv|].
  destruct (_ =? 0).
  - eapply fair_sub; [|apply (loop_safe x _ (length rm)); [lia|lia|apply M, R]]. apply incl_appr, incl_refl.
  - eapply fair_sub; [|apply (loop_safe x _ (length lm)); [lia|lia|apply M, L]]. apply incl_appl, incl_refl.
Qed.
