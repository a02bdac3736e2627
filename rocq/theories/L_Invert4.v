(** Proofs about M_Invert: the code of the solution computes its value. *)
From Coq Require Import ZArith Ascii String List Bool Lia.
From Verif Require Import M_Base M_Time M_Names M_Lex M_Compile M_Bytes M_Exec M_Invert S_Lec S_Eval S_Law S_Invert
  L_Names L_Kdb L_Compile L_Compile2 L_Compile3 L_Bytes L_Link L_Exec L_Exec2 L_Eval L_Law L_Invert.
Import ListNotations.
Open Scope Z_scope.

Lemma undo_fn_shape f acc : shape acc -> shape (undo_fn f acc).
Proof. destruct f; cbn; intros; repeat split; auto; lia. Qed.
Lemma past_shape f acc lg : shape acc -> shape lg -> shape (past f acc lg).
Proof. destruct f; cbn; intros; repeat split; auto; lia. Qed.
Lemma left_shape o acc b : shape acc -> shape b -> shape (undo_left o acc b).
Proof. destruct o; cbn; intros; repeat split; auto; lia. Qed.
Lemma right_shape o acc b : shape acc -> shape b -> shape (undo_right o acc b).
Proof. destruct o; cbn; intros; repeat split; auto; lia. Qed.
Lemma solve_shape x e : forall acc, shape e -> shape acc -> shape (solve x acc e).
Proof.
  induction e using ex_ind2; intros acc S Sa; cbn [solve shape] in *; auto.
  - destruct f; auto.
    + apply IHe; [tauto|]. apply undo_fn_shape, Sa.
    + apply IHe; [tauto|]. apply past_shape; [exact Sa|]. unfold lag1. cbn [shape]. split; [tauto|]. cbn. lia.
  - destruct f; auto. destruct args as [|n [|e [|]]]; auto.
    inversion H as [|? ? _ H2]; subst. inversion H2 as [|? ? He _]; subst. apply He; [tauto|]. apply past_shape; [exact Sa|].
    unfold lag2. cbn [shape length]. repeat split; try tauto; cbn; lia.
  - destruct S. destruct (times x e1); [apply IHe2; [|apply right_shape]|apply IHe1; [|apply left_shape]]; auto.
Qed.

Section Code.
Context {A : arith} (E : env A) (rb : str -> list Z).
Notation fits := (S_Eval.fits E rb []).
Lemma solve_fits x e : forall acc, isolable x e -> fits e -> fits acc -> fits (solve x acc e).
Proof.
  induction e using ex_ind2; intros acc I Fe Fa; cbn [solve isolable] in *; auto.
  - destruct I as (I1 & _ & I3). cbn [S_Eval.fits] in Fe. destruct f; [| |tauto].
    + apply IHe; auto. destruct f; cbn; auto.
    + apply IHe; auto. destruct f; cbn; repeat split; auto; lia.
  - destruct args as [|n [|e [|]]]; try contradiction. destruct sfx; [|contradiction]. destruct f; try tauto.
    destruct I as (I1 & _ & I3). cbn [S_Eval.fits length mods Nat.sub repeat app zip fold_right] in Fe. unfold mods in Fe. cbn in Fe.
    inversion H as [|? ? _ H2]; subst. inversion H2 as [|? ? He _]; subst. apply He; [tauto|tauto|].
    destruct f; cbn; repeat split; try tauto; lia.
  - cbn [S_Eval.fits] in Fe. destruct I as (_ & _ & I1 & I2). destruct (times x e1).
    + apply IHe2; try tauto. destruct o; cbn; tauto.
    + apply IHe1; [apply I1; discriminate|tauto|]. destruct o; cbn; tauto.
Qed.
End Code.
Lemma past_names f acc lg n : In n (tree_names (past f acc lg)) -> In n (tree_names acc) \/ In n (tree_names lg).
Proof. destruct f; cbn; rewrite ?app_nil_r, ?in_app_iff; tauto. Qed.
Lemma solve_names x n e : forall acc, In n (tree_names (solve x acc e)) -> In n (tree_names acc) \/ In n (tree_names e).
Proof.
  induction e using ex_ind2; intros acc I; cbn [solve tree_names] in *; auto.
  - destruct f; auto.
    + apply IHe in I. destruct I as [I|I]; [|tauto]. destruct f; cbn in I; tauto.
    + apply IHe in I. destruct I as [I|I]; [|tauto]. apply past_names in I. cbn in I. tauto.
  - destruct f; auto. destruct args as [|m [|e [|]]]; auto.
    inversion H as [|? ? _ H2]; subst. inversion H2 as [|? ? He _]; subst. cbn. rewrite in_app_iff, app_nil_r. apply He in I.
    destruct I as [I|I]; [|tauto]. apply past_names in I. cbn in I. rewrite in_app_iff, app_nil_r in I. tauto.
  - rewrite in_app_iff. destruct (times x e1); [apply IHe2 in I|apply IHe1 in I]; (destruct I as [I|I]; [|tauto]);
      destruct o; cbn in I; rewrite in_app_iff in I; tauto.
Qed.
Lemma solve_strict x e : forall acc, isolable x e -> strict e = true -> strict acc = true -> strict (solve x acc e) = true.
Proof.
  induction e using ex_ind2; intros acc I Se Sa; cbn [solve strict isolable] in *; auto; try discriminate.
  - destruct f; try discriminate. apply andb_true_iff in Se. apply IHe; try tauto. destruct f; cbn; rewrite ?Sa; reflexivity.
  - destruct args as [|n [|e [|]]]; try contradiction. destruct sfx; [|contradiction]. destruct f; try tauto; discriminate.
  - apply andb_true_iff in Se. destruct Se as [S1 S2]. destruct I as (_ & _ & I1 & I2). destruct (times x e1).
    + apply IHe2; try tauto. destruct o; cbn; rewrite S1, Sa; reflexivity.
    + apply IHe1; [apply I1; discriminate|tauto|]. destruct o; cbn; rewrite S2, Sa; reflexivity.
Qed.
Lemma solve_size x e : forall acc, strict e = true -> size (solve x acc e) <= size acc + 5 * size e.
Proof.
  induction e using ex_ind2; intros acc S; cbn [solve strict size] in *; try discriminate.
  - destruct l; cbn; lia.
  - auto.
  - pose proof (size_pos e). lia.
  - destruct f; try discriminate. apply andb_true_iff in S. destruct S as [_ S]. pose proof (size_pos e).
    specialize (IHe (undo_fn f acc) S). cbn [func_size]. assert (size (undo_fn f acc) <= size acc + 2) by (destruct f; cbn; lia). lia.
  - destruct f; try discriminate. pose proof (sizes_pos args). cbn [func_size]. lia.
  - apply andb_true_iff in S. destruct S as [S1 S2]. pose proof (size_pos e1). pose proof (size_pos e2). destruct (times x e1).
    + specialize (IHe2 (undo_right o acc e1) S2). assert (size (undo_right o acc e1) <= size acc + size e1 + 1) by (destruct o; cbn; lia). lia.
    + specialize (IHe1 (undo_left o acc e2) S1). assert (size (undo_left o acc e2) <= size acc + size e2 + 5) by (destruct o; cbn; lia). lia.
Qed.

(** Any tree over the names of the equation, compiled with the names of the equation. *)
Theorem tree_run A (E : env A) rb text l r x s dup t v : equation text l r ->
  invert text x [] = Inv (rpn s ++ [A_EOE]) dup (names_of (rpn l ++ rpn r)) ->
  shape s -> (forall n, In n (tree_names s) -> In n (tree_names l) \/ In n (tree_names r)) ->
  S_Eval.fits E rb [] l -> S_Eval.fits E rb [] r -> S_Eval.fits E rb [] s ->
  size l + size r < 32768 -> size s < 32768 -> steady false [] s = true ->
  value A E rb t [] s t = Ok v -> inverted_value A E rb text x t = Ok v.
Proof.
  intros Q I Ss Ns Fl Fr Fs Sz S2 St V. unfold inverted_value. rewrite I.
  assert (shape l /\ shape r) as [Sl Sr].
  { destruct Q as (lt & rt & _ & _ & Hl & Hr). split; apply reading_shape; [apply Hl|apply Hr]. }
  set (names := names_of (rpn l ++ rpn r)).
  assert (Nn : forall n, In n names <-> In n (tree_names l) \/ In n (tree_names r)).
  { intros n. unfold names, names_of. rewrite add_names_spec, flat_map_app, !names_rpn, in_app_iff. cbn [In]. tauto. }
  assert (Nl : Z.of_nat (length names) < 2147483648).
  { unfold names, names_of. rewrite flat_map_app, !names_rpn.
    pose proof (add_names_len (tree_names l ++ tree_names r) []). pose proof (names_size l). pose proof (names_size r).
    rewrite app_length in *. cbn [length] in *. lia. }
  destruct (code_run A E rb names s t v (fun n In_ => proj2 (Nn n) (Ns n In_)) Nl Ss Fs S2 St V) as (code0 & code & Ec & Lk & Pc & G).
  rewrite Ec. cbn [rbind].
  replace (link_names E names) with true.
  2:{ symmetry. apply forallb_forall. intros n In_. apply Nn in In_. destruct In_ as [In_|In_];
      [apply (fits_names E rb l Sl [] n Fl In_)|apply (fits_names E rb r Sr [] n Fr In_)]. }
  rewrite Lk. cbn [rbind]. specialize (G [] eq_refl).
  unfold L_exec. destruct code as [|b0 l0] eqn:Eb; [rewrite len_nil in Pc; lia|].
  rewrite <- Eb in *. pose proof (goes_sub E _ t _ _ _ G [] [] (S (length code))) as R.
  cbn [app] in R. rewrite app_nil_r in R. rewrite len_nil, Z.add_0_l in R. apply R. unfold len. lia.
Qed.
