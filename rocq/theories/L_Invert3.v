(** Proofs about M_Invert: the solution does not read the value it replaces. *)
From Coq Require Import ZArith Ascii String List Bool Lia.
From Verif Require Import M_Base M_Time M_Names M_Lex M_Compile M_Bytes M_Exec M_Invert S_Lec S_Eval S_Law S_Invert
  L_Names L_Kdb L_Compile L_Bytes L_Link L_Exec L_Invert L_Invert2.
Import ListNotations.
Open Scope Z_scope.
Local Arguments Z.add : simpl never.
Local Arguments Z.sub : simpl never.

Section Mono.
Context {A : arith}.
Notation F := (F A).
Lemma rle_eq {X} (a b : res X) : a = b -> rle a b.
Proof. intros -> v H. exact H. Qed.
Lemma over_mono (s s' : Z -> res F) js g : sle s s' -> rle (over A s js g) (over A s' js g).
Proof. intros H. unfold over. apply rle_bind; [apply mapM_mono, H|intros l; apply rle_refl]. Qed.
Lemma tfn_mono f args (s s' : Z -> res F) u : sle s s' -> rle (tfn_value A f args s u) (tfn_value A f args s' u).
Proof.
  intros H. unfold tfn_value. destruct f;
    repeat first
      [ apply rle_refl | apply H | apply over_mono; exact H | apply mapM_mono; exact H | apply rle_if
      | match goal with |- rle (let '(_, _) := ?p in _) _ => destruct p end
      | apply rle_bind; [|intros ?] ].
Qed.
Lemma mtfn_mono (E : env A) f nb args (s1 s1' s2 s2' : Z -> res F) u : sle s1 s1' -> sle s2 s2' ->
  rle (mtfn_value A E f nb args s1 s2 u) (mtfn_value A E f nb args s1' s2' u).
Proof.
  intros H1 H2 v V. apply (mtfn_ok H1 H2) with (st := []) in V.
  rewrite app_nil_r in V. unfold mtfn_value. rewrite V. reflexivity.
Qed.
Lemma nth_sle l l' : Forall2 (@sle A) l l' -> forall k, sle (nth k l (fun _ => UB)) (nth k l' (fun _ => UB)).
Proof.
  induction 1 as [|s s' l l' H _ IH]; intros k.
  - destruct k; intros u; apply rle_refl.
  - destruct k; [exact H|apply IH].
Qed.
Lemma now_mono l l' u : Forall2 (fun s s' => @rle F (s u) (s' u)) l l' -> forall k,
  rle (mapM (fun s : Z -> res F => s u) (firstn k l)) (mapM (fun s => s u) (firstn k l')).
Proof.
  induction 1 as [|s s' l l' H _ IH]; intros k; [apply rle_refl|]. destruct k; [apply rle_refl|].
  cbn [firstn mapM]. apply rle_bind; [apply H|intros x]. apply rle_bind; [apply IH|intros y]. apply rle_refl.
Qed.
Lemma Forall2_impl_ {X Y} (P Q : X -> Y -> Prop) l m : (forall x y, P x y -> Q x y) -> Forall2 P l m -> Forall2 Q l m.
Proof. intros H. induction 1; constructor; auto. Qed.
Lemma Forall2_length_ {X Y} (P : X -> Y -> Prop) l m : Forall2 P l m -> length l = length m.
Proof. induction 1; cbn; congruence. Qed.
Lemma apply_mono (E : env A) f l l' u : Forall2 sle l l' -> rle (apply A E f l u) (apply A E f l' u).
Proof.
  intros H. unfold apply. rewrite <- (Forall2_length_ _ _ _ H).
  apply rle_bind; [apply now_mono; revert H; apply Forall2_impl_; intros s s' K; apply K|].
  intros vs. destruct f; [apply rle_refl|apply tfn_mono, nth_sle, H|apply mtfn_mono; apply nth_sle, H].
Qed.
(** An ordinary function needs its arguments at the current period only. *)
Lemma apply_now (E : env A) f l l' u : Forall2 (fun s s' => rle (s u) (s' u)) l l' -> rle (apply A E (FN f) l u) (apply A E (FN f) l' u).
Proof.
  intros H. unfold apply. rewrite <- (Forall2_length_ _ _ _ H).
  apply rle_bind; [apply now_mono, H|]. intros vs. apply rle_refl.
Qed.
End Mono.

Section Assign.
Context {A : arith} (E : env A) (rb : str -> list Z) (x : str) (t curt : Z) (v : F A).
Notation E' := (assign E x t v).
Notation value := (value A E rb curt).
Notation value' := (S_Eval.value A E' rb curt).

Lemma absent_value e : absent x e = true -> forall ms, sle (value ms e) (value' ms e).
Proof.
  induction e using ex_ind2; cbn [absent]; intros H0 ms u.
  - apply rle_eq. destruct l; try reflexivity. cbn [S_Eval.value leaf_value assign var_at smp]. apply negb_true_iff in H0.
    rewrite H0. reflexivity.
  - apply IHe, H0.
  - apply IHe, H0.
  - cbn [S_Eval.value]. apply (apply_mono E f). constructor; [apply IHe, H0|constructor].
  - cbn [S_Eval.value]. apply (apply_mono E f). generalize (mods ms sfx (length args)).
    induction H as [|e l He _ IH]; intros [|m ml]; cbn [zip]; try constructor; cbn [forallb] in H0; apply andb_true_iff in H0; [apply He|apply IH]; tauto.
  - apply andb_true_iff in H0. cbn [S_Eval.value]. apply rle_bind; [apply IHe1; tauto|intros p].
    apply rle_bind; [apply IHe2; tauto|intros q]. apply rle_refl.
Qed.
Lemma still_value e u : still x e = true -> u <> t -> rle (value [] e u) (value' [] e u).
Proof.
  intros S N. induction e using ex_ind2; cbn [still] in S.
  - apply rle_eq. destruct l; try reflexivity. cbn [S_Eval.value leaf_value assign var_at smp]. destruct (str_eqb name x); [|reflexivity].
    destruct (var_at E name) as [vals|]; [|reflexivity]. cbn [option_map]. unfold placed. cbn [fold_left rbind].
    unfold at_position. cbn [smp assign]. rewrite Z.add_0_r. destruct (Z.eqb_spec u t); [contradiction|reflexivity].
  - apply IHe, S.
  - apply absent_value, S.
  - destruct f; [|apply (absent_value (EPre (TFN f) e) S []) | apply (absent_value (EPre (MTFN f) e) S [])].
    cbn [S_Eval.value]. apply (apply_now E f). constructor; [apply IHe, S|constructor].
  - assert (K : absent x (EApp f args sfx) = true \/ (exists g, f = FN g) /\ sfx = [] /\ forallb (still x) args = true).
    { destruct f; [|left; exact S|left; exact S]. destruct sfx; [right; eauto|left; exact S]. }
    destruct K as [K|((g & ->) & -> & K)]; [apply absent_value, K|].
    cbn [S_Eval.value]. apply (apply_now E g). unfold mods. cbn [app].
    assert (M : forall ml, Forall (Logic.eq []) ml -> length ml = length args ->
      Forall2 (fun s s' : Z -> res (F A) => rle (s u) (s' u)) (zip (fun e m => value m e) args ml) (zip (fun e m => value' m e) args ml)).
    { clear S. induction H as [|e l He _ IH]; intros [|m ml] Fm L; cbn [zip]; try constructor; try discriminate L;
        cbn [forallb] in K; apply andb_true_iff in K; inversion Fm; subst.
      - apply He. tauto.
      - apply IH; [tauto|assumption|cbn in L; lia]. }
    destruct args as [|a l]; [constructor|]. apply M.
    + apply Forall_app. split; [|constructor; auto]. apply Forall_forall. intros m I. apply repeat_spec in I. congruence.
    + rewrite app_length, repeat_length. cbn. lia.
  - apply andb_true_iff in S. cbn [S_Eval.value]. apply rle_bind; [apply IHe1; tauto|intros p].
    apply rle_bind; [apply IHe2; tauto|intros q]. apply rle_refl.
Qed.
End Assign.

(** ** Occurrences *)
Lemma filter_nil {X} (f : X -> bool) l : (forall y, In y l -> f y = false) -> filter f l = [].
Proof. induction l as [|a l IH]; intros H; [reflexivity|]. cbn. rewrite (H a) by (left; reflexivity). apply IH. intros; apply H; right; assumption. Qed.
Lemma times_groups x args : length (filter (here x) (groups [] (map rpn args))) = list_sum (map (times x) args).
Proof.
  assert (G : forall e, length (filter (here x) (group (rpn e))) = times x e) by (intros e; apply (times_par x e)).
  induction args as [|e [|e' l] IH]; [reflexivity| |].
  - cbn [map groups sfx_all fold_left list_sum fold_right]. unfold sfx_all. cbn [fold_left]. rewrite G. lia.
  - change (groups [] (map rpn (e :: e' :: l))) with (group (rpn e) ++ groups [] (map rpn (e' :: l))).
    rewrite filter_app, app_length, G, IH. reflexivity.
Qed.
Lemma still_absent x e : still x e = true -> times x e = 0%nat -> absent x e = true.
Proof.
  induction e using ex_ind2; cbn [still absent]; intros S T.
  - destruct l; try reflexivity. unfold times in T. cbn [rpn leaf_atom filter here] in T.
    change ((0 =? 0) && (step period0 =? 0) && str_eqb name x) with (str_eqb name x) in T.
    destruct (str_eqb name x); [discriminate T|reflexivity].
  - rewrite times_par in T. auto.
  - exact S.
  - rewrite times_pre in T. destruct f; auto.
  - destruct f; auto. destruct sfx; auto. unfold times in T. cbn [rpn] in T. rewrite filter_app, app_length, times_groups in T.
    assert (T' : list_sum (map (times x) args) = 0%nat) by lia. clear T. apply forallb_forall. rewrite forallb_forall in S. rewrite Forall_forall in H.
    intros e I. apply H; auto. clear - T' I. induction args as [|a l IH]; [contradiction|]. cbn in T'. destruct I as [-> | I]; [lia|apply IH; [|exact I]]. unfold list_sum. lia.
  - rewrite times_bin in T. apply andb_true_iff in S. destruct S. rewrite IHe1, IHe2 by (auto; lia). reflexivity.
Qed.
Definition named (x : str) (a : atom) : bool := match a with A_VAR n _ _ => str_eqb n x | _ => false end.
Definition vars (x : str) (l : list atom) : nat := length (filter (named x) l).
Lemma vars_app x a b : vars x (a ++ b) = (vars x a + vars x b)%nat.
Proof. unfold vars. rewrite filter_app, app_length. reflexivity. Qed.
Lemma vars_sfx x s l : vars x (map (sfx_atom s) l) = vars x l.
Proof.
  induction l as [|a l IH]; [reflexivity|]. unfold vars in *. cbn [map filter].
  replace (named x (sfx_atom s a)) with (named x a).
  - destruct (named x a); cbn [length]; rewrite IH; reflexivity.
  - destruct a; destruct s as [[] k|q]; try reflexivity; cbn; destruct (step p =? 0); reflexivity.
Qed.
Lemma vars_sfx_all x ms : forall l, vars x (sfx_all ms l) = vars x l.
Proof.
  induction ms as [|s ms IH]; intros l; [reflexivity|]. unfold sfx_all in *. cbn [fold_left]. rewrite IH. apply vars_sfx.
Qed.
Lemma vars_group x l : vars x (group l) = vars x l.
Proof. unfold group. change (A_OPENP :: l ++ [A_CLOSEP]) with ([A_OPENP] ++ l ++ [A_CLOSEP]). rewrite !vars_app. cbn. lia. Qed.
Lemma absent_vars x e : absent x e = true -> vars x (rpn e) = 0%nat.
Proof.
  induction e using ex_ind2; cbn [absent rpn]; intros H0.
  - destruct l; try reflexivity. unfold vars. cbn. apply negb_true_iff in H0. rewrite H0. reflexivity.
  - rewrite vars_group. auto.
  - rewrite vars_sfx. auto.
  - rewrite vars_app, IHe by exact H0. reflexivity.
  - rewrite vars_app. cbn. rewrite Nat.add_0_r. rewrite forallb_forall in H0. rewrite Forall_forall in H.
    induction args as [|e [|e' l] IH]; [reflexivity| |].
    + cbn [map groups]. rewrite vars_sfx_all, vars_group. apply H; [left; reflexivity|]. apply H0. left. reflexivity.
    + change (groups sfx (map rpn (e :: e' :: l))) with (group (rpn e) ++ groups sfx (map rpn (e' :: l))).
      rewrite vars_app, vars_group, (H e (or_introl eq_refl) (H0 e (or_introl eq_refl))). cbn [Nat.add].
      apply IH; [intros y I|intros y I]; [apply H|apply H0]; right; exact I.
  - apply andb_true_iff in H0. rewrite !vars_app, IHe1, IHe2 by tauto. reflexivity.
Qed.
Lemma absent_times x e : absent x e = true -> times x e = 0%nat.
Proof.
  intros H0. apply absent_vars in H0. unfold vars, times in *. induction (rpn e) as [|a l IH]; [reflexivity|].
  cbn [filter] in *. destruct (here x a) eqn:Q.
  - replace (named x a) with true in H0; [discriminate H0|]. destruct a; try discriminate Q. cbn in Q |- *.
    apply andb_true_iff in Q. symmetry. apply Q.
  - apply IH. destruct (named x a); [discriminate H0|exact H0].
Qed.

(** ** The solution after the assignment *)
Section Update.
Context {A : arith} (E : env A) (rb : str -> list Z) (x : str) (t : Z) (v : F A).
Notation E' := (assign E x t v).
Notation val e := (value A E rb t [] e t).
Notation val' e := (value A E' rb t [] e t).
Notation settled := (settled E rb t).

Lemma still_settled e : still x e = true -> isolable x e -> times x e = 1%nat -> settled x e.
Proof.
  induction e using ex_ind2; cbn [still isolable S_Invert.settled]; intros S I T; auto.
  - rewrite times_par in T. auto.
  - rewrite times_pre in T. destruct f; try tauto; try (cbn [absent] in S; apply absent_times in S; rewrite S in T; discriminate T).
  - destruct args as [|n [|e [|]]]; try contradiction. destruct sfx; [|contradiction]. destruct f; try tauto.
    apply (absent_times x (EApp (TFN f) [n; e] [])) in S. rewrite S in T. discriminate T.
  - rewrite times_bin in T. apply andb_true_iff in S. destruct I as (_ & _ & I1 & I2). split.
    + intros N. split; [apply IHe1; [tauto|tauto|lia]|apply still_absent; [tauto|lia]].
    + intros N. split; [apply still_absent; tauto|apply IHe2; [tauto|tauto|lia]].
Qed.
Lemma pre_mono f a : rle (val a) (val' a) -> rle (val (EPre (FN f) a)) (val' (EPre (FN f) a)).
Proof. intros H. cbn [value]. apply (apply_now E f). constructor; [exact H|constructor]. Qed.
Lemma bin_mono o a b : rle (val a) (val' a) -> rle (val b) (val' b) -> rle (val (EBin o a b)) (val' (EBin o a b)).
Proof. intros H1 H2. cbn [value]. apply rle_bind; [exact H1|intros p]. apply rle_bind; [exact H2|intros q]. apply rle_refl. Qed.
Lemma past_mono f acc lg : rle (val acc) (val' acc) -> rle (val lg) (val' lg) -> rle (val (past f acc lg)) (val' (past f acc lg)).
Proof.
  intros H1 H2. destruct f; cbn [past]; repeat first [exact H1|exact H2|apply bin_mono|apply pre_mono|apply rle_refl].
Qed.
Lemma lag_mono k a b : (forall u, u <> t -> rle (a u) (b u)) -> (forall c, the_lag A k = Ok c -> c <> 0) ->
  rle (tfn_value A Flag k a t) (tfn_value A Flag k b t).
Proof.
  intros H K. cbn [tfn_value]. intros w V. destruct (the_lag A k) as [c| |] eqn:L; try discriminate V. cbn [rbind] in *.
  specialize (K c eq_refl). unfold i32 in *. destruct ((_ <=? _) && (_ <=? _)); [|discriminate V]. cbn [rbind] in *.
  apply H; [lia|exact V].
Qed.
Theorem solve_mono e : forall acc, isolable x e -> times x e = 1%nat -> settled x e -> rle (val acc) (val' acc) ->
  rle (val (solve x acc e)) (val' (solve x acc e)).
Proof.
  induction e using ex_ind2; intros acc I T S H0; cbn [isolable S_Invert.settled solve] in *; auto.
  - rewrite times_par in T. auto.
  - rewrite times_pre in T. destruct f as [f|f|f]; [| |exact H0].
    + apply IHe; try tauto. destruct f; cbn [undo_fn]; repeat first [exact H0|apply pre_mono].
    + apply IHe; try tauto; [apply still_settled; tauto|]. apply past_mono; [exact H0|].
      unfold lag1. change (val (EPre (TFN Flag) e)) with (tfn_value A Flag [] (value A E rb t [] e) t).
      change (val' (EPre (TFN Flag) e)) with (tfn_value A Flag [] (value A E' rb t [] e) t).
      apply lag_mono; [|intros c [= <-]; discriminate]. intros u N. apply still_value; assumption.
  - destruct args as [|n [|e [|]]]; try contradiction. destruct sfx; [|contradiction]. destruct f as [f|f|f]; try tauto.
    destruct I as (I1 & I2 & I3). destruct S as (S1 & S2 & S3). rewrite times_app2, I2 in T. cbn in T.
    inversion H as [|? ? _ H2]; subst. inversion H2 as [|? ? He _]; subst.
    apply He; auto; [apply still_settled; assumption|]. apply past_mono; [exact H0|].
    unfold lag2. intros w V. rewrite app_tfn in *. destruct (val n) as [c| |] eqn:Vn; try discriminate V.
    rewrite (absent_value E rb x t t v n S1 [] t c Vn). cbn [rbind] in *. revert V. apply lag_mono.
    + intros u N. apply still_value; assumption.
    + intros k K. specialize (S3 c eq_refl). congruence.
  - rewrite times_bin in T. destruct I as (_ & _ & I1 & I2). destruct S as [S1 S2].
    destruct (times x e1) as [|k] eqn:T1.
    + apply IHe2; try tauto. destruct (S2 eq_refl) as [S3 _].
      assert (Ha : rle (val e1) (val' e1)) by (apply absent_value, S3).
      destruct o; cbn [undo_right]; apply bin_mono; assumption.
    + destruct (S1 ltac:(discriminate)) as [S3 S4]. apply IHe1; try tauto; [apply I1; discriminate|lia|].
      assert (Hb : rle (val e2) (val' e2)) by (apply absent_value, S4).
      destruct o; cbn [undo_left]; repeat first [assumption|apply bin_mono|apply pre_mono].
Qed.
Lemma assigned : inside E x t -> val' (ELeaf (LVar x)) = Ok v.
Proof.
  intros [R K]. cbn. rewrite str_eqb_refl. destruct (var_at E x) as [vals|]; [|contradiction]. cbn.
  unfold at_position. cbn [smp assign]. rewrite Z.add_0_r. 
  destruct (Z.leb_spec 0 t); [|lia]. destruct (Z.ltb_spec t (s_nb (smp E))); [|lia]. cbn. rewrite Z.eqb_refl. reflexivity.
Qed.
End Update.
