(** Lemmas about the simulation: what is changed, and what a result depends on. *)
From Coq Require Import ZArith List Bool Lia Permutation.
From Verif Require Import M_Base M_Names M_Bytes M_Exec M_Order M_Exo2endo M_Vars M_Simul S_Order S_Simul.
Import ListNotations.
Open Scope Z_scope.

Lemma set_same {A} (s : values A) v t x : set s v t x v t = x.
Proof. unfold set. now rewrite !Z.eqb_refl. Qed.
Lemma set_other {A} (s : values A) v t x v' t' : ~ (v' = v /\ t' = t) -> set s v t x v' t' = s v' t'.
Proof.
  intros H. unfold set. destruct (Z.eqb_spec v' v) as [a|a], (Z.eqb_spec t' t) as [b|b]; cbn; try reflexivity. now destruct H.
Qed.

Section Frame.
Variable A : arith.
Variable Q : eqns A.
Variable P : params A.

(** [s'] differs from [s] at most at the places of [W]. *)
Definition only (W : Z -> Z -> Prop) (s s' : values A) : Prop := forall v p, W v p \/ s' v p = s v p.
Lemma only_refl W s : only W s s. Proof. intros v p. now right. Qed.
Lemma only_trans W s1 s2 s3 : only W s1 s2 -> only W s2 s3 -> only W s1 s3.
Proof. intros H1 H2 v p. destruct (H1 v p), (H2 v p); auto. right. congruence. Qed.
Lemma only_weaken (W W' : Z -> Z -> Prop) s s' : (forall v p, W v p -> W' v p) -> only W s s' -> only W' s s'.
Proof. intros H O v p. destruct (O v p); auto. Qed.
Lemma only_set (W : Z -> Z -> Prop) s s' v t x : W v t -> only W s s' -> only W s (set s' v t x).
Proof.
  intros H O v' p. destruct (Z.eq_dec v' v) as [->|a]; [destruct (Z.eq_dec p t) as [->|b]; [now left|]|];
    rewrite set_other by tauto; apply O.
Qed.

Lemma newton_loop_only e t v n : forall oldx sh tol x s s0 (W : Z -> Z -> Prop), W v t -> only W s0 s ->
  only W s0 (fst (newton_loop A Q e t v n oldx sh tol x s)).
Proof.
  induction n as [|n IH]; intros oldx sh tol x s s0 W Hw O; cbn [newton_loop].
  - cbn. now apply only_set.
  - repeat match goal with |- context [if ?b then _ else _] => destruct b; cbn [fst] end;
      try (repeat apply only_set; auto; fail); apply IH; auto; repeat apply only_set; auto.
Qed.
Lemma newton_sub_only e t v algo s : only (fun v' p => v' = v /\ p = t) s (fst (newton_sub A Q P e t v algo s)).
Proof.
  unfold newton_sub. repeat match goal with |- context [if ?b then (s, _) else _] => destruct b; [apply only_refl|] end.
  apply newton_loop_only; [now split|apply only_refl].
Qed.
Lemma newton_only e t v s : only (fun v' p => v' = v /\ p = t) s (fst (newton A Q P e t v s)).
Proof.
  unfold newton. cbv zeta. destruct num; [apply newton_sub_only|].
  eapply only_trans; apply newton_sub_only.
Qed.
Lemma calculate_only e t v s : only (fun v' p => v' = v /\ p = t) s (fst (calculate A Q P e t v s)).
Proof.
  unfold calculate, zero. cbv zeta. destruct (_ || _); [|apply only_refl]. destruct num; apply newton_only.
Qed.

Variable endo : Z -> Z.
Variable t : Z.
(** The endogenous variables of [es] at [t]. *)
Definition endos (es : list Z) : Z -> Z -> Prop := fun v p => p = t /\ exists e, In e es /\ v = endo e.
Lemma endos_in es e : In e es -> endos es (endo e) t. Proof. intros H. split; eauto. Qed.
Lemma endos_incl es fs v p : incl es fs -> endos es v p -> endos fs v p.
Proof. intros H [-> (e & He & ->)]. split; eauto. Qed.

Lemma calculate_endos es e s : In e es -> only (endos es) s (fst (calculate A Q P e t (endo e) s)).
Proof. intros H. eapply only_weaken; [|apply calculate_only]. intros v p [-> ->]. now apply endos_in. Qed.

Lemma init_only pre inter post s : only (endos (pre ++ inter ++ post)) s (init_values A P endo pre inter post t s).
Proof.
  unfold init_values. generalize (pre ++ inter ++ post) as l. intros l.
  assert (G : forall k s, incl k l -> only (endos l) s (fold_left (fun s e => set s (endo e) t (init_value A P t (s (endo e)) (start P))) k s));
    [|apply G, incl_refl].
  induction k as [|e k IH]; intros s0 I; [apply only_refl|]. cbn [fold_left].
  eapply only_trans; [|apply IH; intros x Hx; apply I; now right].
  apply only_set; [apply endos_in, I; now left|apply only_refl].
Qed.
Lemma solve_only es : forall s, only (endos es) s (solve_block A Q P endo t es s).
Proof.
  induction es as [|e es IH]; intros s; [apply only_refl|]. cbn [solve_block].
  destruct (calculate A Q P e t (endo e) s) as [s1 x] eqn:E.
  eapply only_trans; [|eapply only_weaken; [|apply IH]; intros v p; apply endos_incl; intros y Hy; now right].
  apply only_set; [apply endos_in; now left|]. change s1 with (fst (s1, x)). rewrite <- E. apply calculate_endos. now left.
Qed.
Lemma restore_only es : forall xk s, only (endos es) s (restore A endo t es xk s).
Proof.
  induction es as [|e es IH]; intros [|x xk] s; try apply only_refl. cbn [restore].
  eapply only_trans; [|eapply only_weaken; [|apply IH]; intros v p; apply endos_incl; intros y Hy; now right].
  apply only_set; [apply endos_in; now left|apply only_refl].
Qed.
Lemma cons_incl (e : Z) es s s' : only (endos es) s s' -> only (endos (e :: es)) s s'.
Proof. apply only_weaken. intros v p. apply endos_incl. intros x Hx. now right. Qed.

Lemma interdep_1_only r es : forall old s norm, only (endos es) s (i_s (interdep_1 A Q P endo t r es old s norm)).
Proof.
  induction es as [|e es IH]; intros old s norm; [apply only_refl|]. cbn [interdep_1].
  assert (C := calculate_endos (e :: es) e s (or_introl eq_refl)).
  destruct (calculate A Q P e t (endo e) s) as [s1 x]. cbn [fst] in C.
  assert (W : endos (e :: es) (endo e) t) by (apply endos_in; now left).
  destruct (negb _); [exact C|]. destruct (num A (s (endo e) t)); cbn [i_s];
    (eapply only_trans; [|apply cons_incl, IH]; now apply only_set).
Qed.
Lemma stage_1_only es : forall old s, only (endos es) s (fst (fst (fst (stage_1 A Q P endo t es old s)))).
Proof.
  induction es as [|e es IH]; intros old s; [apply only_refl|]. cbn [stage_1].
  assert (C := calculate_endos (e :: es) e s (or_introl eq_refl)).
  destruct (calculate A Q P e t (endo e) s) as [s1 x]. cbn [fst] in C.
  destruct (negb _); [exact C|]. assert (J := IH (tl old) s1).
  destruct (stage_1 A Q P endo t es (tl old) s1) as [[[s2 xks] xs] ok]. cbn [fst] in *.
  eapply only_trans; [exact C|]. now apply cons_incl.
Qed.
Lemma stage_2_only r es : forall xks xs s norm, only (endos es) s (fst (stage_2 A P endo t r es xks xs s norm)).
Proof.
  induction es as [|e es IH]; intros [|xk xks] [|x xs] s norm; try apply only_refl. cbn [stage_2].
  assert (W : endos (e :: es) (endo e) t) by (apply endos_in; now left).
  destruct (num A xk); (eapply only_trans; [|apply cons_incl, IH]; apply only_set; [exact W|apply only_refl]).
Qed.
Lemma interdep_only inter old s norm : only (endos inter) s (i_s (interdep A Q P endo inter t old s norm)).
Proof.
  unfold interdep. destruct le; [apply interdep_1_only|]. unfold interdep_2.
  assert (J := stage_1_only inter old s).
  destruct (stage_1 A Q P endo t inter old s) as [[[s2 xks] xs] ok]. cbn [fst] in J. destruct ok; [|exact J].
  assert (K := stage_2_only (abs A (relax P)) inter xks xs s2 (zer A)).
  destruct (stage_2 A P endo t (abs A (relax P)) inter xks xs s2 (zer A)) as [s3 n]. cbn [fst i_s] in *. eapply only_trans; eauto.
Qed.
Lemma diverge_only es : forall old s acc, only (endos es) s (fst (fst (diverge A Q P endo t es old s acc))).
Proof.
  induction es as [|e es IH]; intros old s acc; [apply only_refl|]. cbn [diverge].
  assert (C := calculate_endos (e :: es) e s (or_introl eq_refl)).
  destruct (calculate A Q P e t (endo e) s) as [s1 x]. cbn [fst] in C.
  destruct (negb _); [exact C|]. match goal with |- context [diverge _ _ _ _ _ es (tl old) s1 ?a] => generalize a as acc' end. intros acc'. assert (J := IH (tl old) s1 acc').
  destruct (diverge A Q P endo t es (tl old) s1 acc') as [[s2 xks] l]. cbn [fst] in *.
  eapply only_trans; [exact C|]. now apply cons_incl.
Qed.
Lemma iterate_only inter key n : forall it s xk norm,
  only (endos inter) s (i_s (snd (fst (iterate A Q P endo inter t key n it s xk norm)))).
Proof.
  induction n as [|n IH]; intros it s xk norm; [apply only_refl|]. cbn [iterate]. cbv zeta.
  assert (J := interdep_only inter xk s norm).
  repeat match goal with |- context [if ?b then _ else _] => destruct b; [exact J|] end.
  eapply only_trans; [exact J|apply IH].
Qed.
Lemma sub_simulate_only pre inter post key s xk norm :
  only (endos (pre ++ inter ++ post)) s (r_s (sub_simulate A Q P endo pre inter post t key s xk norm)).
Proof.
  set (all := pre ++ inter ++ post).
  assert (I1 : incl pre all) by (intros x Hx; unfold all; rewrite !in_app_iff; auto).
  assert (I2 : incl inter all) by (intros x Hx; unfold all; rewrite !in_app_iff; auto).
  assert (I3 : incl post all) by (intros x Hx; unfold all; rewrite !in_app_iff; auto).
  assert (G : forall es a b, incl es all -> only (endos es) a b -> only (endos all) a b).
  { intros es a b H. apply only_weaken. intros v p. now apply endos_incl. }
  unfold sub_simulate. set (s1 := solve_block _ _ _ _ _ _ _).
  assert (O1 : only (endos all) s s1).
  { eapply only_trans; [apply (init_only pre inter post)|]. apply (G pre); auto. apply solve_only. }
  assert (J := iterate_only inter key (maxit P) 0 s1 xk norm).
  destruct (iterate A Q P endo inter t key (maxit P) 0 s1 xk norm) as [[it i] why]. cbn [fst snd] in J.
  assert (O2 : only (endos all) s (i_s i)) by (eapply only_trans; [exact O1|now apply (G inter)]).
  assert (O3 : only (endos all) s (restore A endo t inter (i_xk i) (i_s i))).
  { eapply only_trans; [exact O2|apply (G inter); auto; apply restore_only]. }
  destruct why; cbn [r_s]; auto.
  - eapply only_trans; [exact O3|apply (G post); auto; apply solve_only].
  - assert (D := diverge_only inter (i_xk i) (restore A endo t inter (i_xk i) (i_s i)) []).
    destruct (diverge _ _ _ _ _ _ _ _ _) as [[s2 xks] l]. cbn [fst r_s] in *.
    eapply only_trans; [exact O3|now apply (G inter)].
Qed.
End Frame.
