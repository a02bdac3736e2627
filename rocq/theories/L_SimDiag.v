(** Lemmas on the diagnostics of a simulation. *)
From Coq Require Import ZArith Ascii String List Bool Lia Permutation.
From Verif Require Import M_Base M_Names M_Bytes M_Exec M_Order M_Exo2endo M_Simul M_SimDiag S_Order S_Simul S_SimDiag
  L_Order4 L_Order5 L_Exo3 L_Simul L_Simul4 L_Simul5 L_Simul8.
Import ListNotations.
Open Scope Z_scope.

Section Iter.
Variable A : arith.
Variable Q : eqns A.
Variable P : params A.
Variable endo : Z -> Z.
Variable inter : list Z.
Variable t : Z.
Variable key : nat -> bool.
Lemma iterate_stop n : forall it s xk norm it' i why, iterate A Q P endo inter t key n it s xk norm = (it', i, why) ->
  match why with
  | CONVERGED => (S it <= it' <= it + n)%nat /\ le A (i_norm i) (eps P) = true
  | TOO_LONG => it' = (it + n)%nat /\ (n = O -> i_norm i = norm) /\ (n <> O -> le A (i_norm i) (eps P) = false)
  | _ => (S it <= it' <= it + n)%nat
  end.
Proof.
  induction n as [|n IH]; intros it s xk norm it' i why H; cbn [iterate] in H.
  { inversion H; subst. split; [lia|]. split; [reflexivity|congruence]. }
  set (r := interdep A Q P endo inter t xk s norm) in *.
  destruct (i_ok r); cbn [negb] in H; [|inversion H; subst; lia].
  destruct (key (S it)); [inversion H; subst; lia|].
  destruct (le A (i_norm r) (eps P)) eqn:E; [inversion H; subst; split; [lia|exact E]|].
  specialize (IH _ _ _ _ _ _ _ H). destruct why; try lia.
  - destruct IH as [I1 I2]. split; [lia|exact I2].
  - destruct IH as (I1 & I2 & I3). split; [lia|]. split; [discriminate|]. intros _. destruct n as [|n]; [rewrite (I2 eq_refl); exact E|apply I3; discriminate].
Qed.
End Iter.

Section Chain.
Variable A : arith.
Variable Q : eqns A.
Variable P : params A.
Variable m : model.
Variable o : ordering.
Variables (nb : Z) (exos : list Z) (keys : Z -> nat -> bool).

Lemma le_or x y : le A x y = true -> lt A x y = true \/ eq A x y = true.
Proof. intros H. apply orb_prop. exact H. Qed.
Lemma le_no x y : le A x y = false -> lt A x y = false /\ eq A x y = false.
Proof. intros H. apply orb_false_elim. exact H. Qed.

(** The outcome of a period, recorded at its position. *)
Lemma upd_at {X} (f : Z -> X) t x : upd f t x t = x. Proof. unfold upd. now rewrite Z.eqb_refl. Qed.
Lemma upd_off {X} (f : Z -> X) t x p : p <> t -> upd f t x p = f p.
Proof. intros H. unfold upd. destruct (p =? t) eqn:E; [apply Z.eqb_eq in E; contradiction|reflexivity]. Qed.
Lemma recorded key t s xk norm d : let r := simulate_period A Q P m o key t s xk norm in
  match r_stop r with CONVERGED => converged_at A P (record t r d) t | why => stopped_at A P (record t r d) t why end.
Proof.
  intros r. unfold r, simulate_period, sub_simulate. destruct (iterate _ _ _ _ _ _ _ _ _ _ _ _) as [[it i] why] eqn:E.
  apply iterate_stop in E. destruct why; cbn [r_stop].
  - destruct E as [E1 E2]. unfold converged_at, record. cbn [d_iters d_norms r_iters r_norm]. rewrite !upd_at. split; [lia|]. apply le_or. destruct it; [lia|exact E2].
  - unfold stopped_at, record. cbn [d_iters r_iters]. rewrite upd_at. lia.
  - unfold stopped_at, record. cbn [d_iters r_iters]. rewrite upd_at. lia.
  - destruct E as (E1 & E2 & E3). destruct (diverge _ _ _ _ _ _ _ _ _) as [[s1 xks] l]. cbn [r_stop]. unfold stopped_at, record. cbn [d_iters d_norms r_iters r_norm]. rewrite !upd_at.
    cbn [Nat.add] in E1. subst it. split; [reflexivity|]. split.
    + intros Hm. destruct (maxit P) as [|k]; [cbn in Hm; lia|]. apply le_no, E3. discriminate.
    + intros Hm. destruct (maxit P) as [|k]; [reflexivity|lia].
Qed.

(** The diagnostics do not interfere. *)
Lemma periods_d_values n : forall t s xk norm d, fst (periods_d A Q P m o nb exos keys n t s xk norm d) = periods A Q P m o nb exos keys n t s xk norm.
Proof.
  induction n as [|n IH]; intros t s xk norm d; cbn [periods_d periods]; [reflexivity|].
  cbv zeta. destruct (r_stop _); [apply IH|reflexivity|reflexivity|reflexivity].
Qed.
Lemma periods_d_off n : forall t s xk norm d s' ok d', periods_d A Q P m o nb exos keys n t s xk norm d = (s', ok, d') ->
  d_nb d' = d_nb d /\ forall p, p < t \/ t + Z.of_nat n <= p -> d_iters d' p = d_iters d p /\ d_norms d' p = d_norms d p.
Proof.
  induction n as [|n IH]; intros t s xk norm d s' ok d' H; cbn [periods_d] in H.
  { inversion H; subst. split; [reflexivity|]. intros p _. split; reflexivity. }
  set (r := simulate_period A Q P m o (keys t) t s xk norm) in *. cbv zeta in H.
  destruct (r_stop r); try (inversion H; subst; split; [reflexivity|]; intros p Hp; unfold record; cbn [d_iters d_norms]; rewrite !upd_off by lia; split; reflexivity).
  apply IH in H. destruct H as [H1 H2]. split; [exact H1|]. intros p Hp. destruct (H2 p ltac:(lia)) as [-> ->]. unfold record; cbn [d_iters d_norms]. rewrite !upd_off by lia. split; reflexivity.
Qed.
Definition good (s' : values A) (d : diag A) (p : Z) : Prop := converged_at A P d p /\ explained A P Q m o keys s' d p CONVERGED.
Lemma periods_d_chain n : forall t s xk norm d s' ok d', periods_d A Q P m o nb exos keys n t s xk norm d = (s', ok, d') ->
  (forall p, t <= p < t + Z.of_nat n -> untouched A d p) ->
  (ok = true -> forall k, 0 <= k < Z.of_nat n -> good s' d' (t + k)) /\
  (ok = false -> exists k why, 0 <= k < Z.of_nat n /\ stopped_at A P d' (t + k) why /\ explained A P Q m o keys s' d' (t + k) why /\
     (forall i, 0 <= i < k -> good s' d' (t + i)) /\ forall i, k < i < Z.of_nat n -> untouched A d' (t + i)).
Proof.
  induction n as [|n IH]; intros t s xk norm d s' ok d' H Z0.
  { cbn [periods_d] in H. inversion H; subst. split; [lia|discriminate]. }
  pose proof (periods_d_values (S n) t s xk norm d) as PV. rewrite H in PV. cbn [fst] in PV.
  cbn [periods_d] in H. pose proof (recorded (keys t) t s xk norm d) as RC. cbv zeta in RC.
  set (r := simulate_period A Q P m o (keys t) t s xk norm) in *. cbv zeta in H.
  assert (EX : forall s2 d2, (forall v, s2 v t = r_s r v t) -> d_iters d2 t = d_iters (record t r d) t -> d_norms d2 t = d_norms (record t r d) t ->
    explained A P Q m o keys s2 d2 t (r_stop r)).
  { intros s2 d2 E E1 E2. exists s, xk, norm. cbv zeta. fold r. split; [reflexivity|]. split; [exact E|]. unfold record in E1, E2. cbn [d_iters d_norms] in E1, E2. rewrite upd_at in E1. rewrite upd_at in E2.
    split; [exact E1|]. intros N. rewrite E2. destruct (r_iters r); [cbn in E1; lia|reflexivity]. }
  destruct (r_stop r) eqn:ES.
  2-4: inversion H; subst; split; [discriminate|]; intros _; eexists 0, _; split; [lia|]; rewrite Z.add_0_r; split; [exact RC|]; split; [apply EX; reflexivity|];
       split; [lia|]; intros i Hi; destruct (Z0 (t + i) ltac:(lia)) as [U1 U2]; unfold untouched, record; cbn [d_iters d_norms]; rewrite !upd_off by lia; split; assumption.
  set (s1 := copy_forward A nb t exos (r_s r)) in *.
  assert (F : forall v, s' v t = r_s r v t).
  { intros v. pose proof (periods_d_values n (t + 1) s1 (r_xk r) (r_norm r) (record t r d)) as K. rewrite H in K. cbn [fst] in K.
    pose proof (periods_before A Q P m o nb exos keys n (t + 1) s1 (r_xk r) (r_norm r) v t ltac:(lia)) as K2. rewrite <- K in K2. cbn [fst] in K2.
    rewrite K2. apply (copy_at A nb exos keys t (r_s r) v t). lia. }
  assert (G : good s' d' (t + 0)).
  { rewrite Z.add_0_r. destruct (periods_d_off _ _ _ _ _ _ _ _ _ H) as [_ OFF]. destruct (OFF t ltac:(lia)) as [O1 O2]. split.
    - unfold converged_at in *. rewrite O1, O2. exact RC.
    - apply EX; assumption. }
  destruct (IH _ _ _ _ _ _ _ _ H) as [I1 I2].
  { intros p Hp. destruct (Z0 p ltac:(lia)) as [U1 U2]. unfold untouched, record. cbn [d_iters d_norms]. rewrite !upd_off by lia. split; assumption. }
  split.
  - intros Ho k Hk. destruct (Z.eq_dec k 0) as [->|Nk]; [exact G|]. replace (t + k) with (t + 1 + (k - 1)) by lia. apply I1; [exact Ho|lia].
  - intros Ho. destruct (I2 Ho) as (k & why & Hk & Hs & He & Hc & Hu). exists (k + 1), why. split; [lia|]. replace (t + (k + 1)) with (t + 1 + k) by lia.
    split; [exact Hs|]. split; [exact He|]. split.
    + intros i Hi. destruct (Z.eq_dec i 0) as [->|Ni]; [exact G|]. replace (t + i) with (t + 1 + (i - 1)) by lia. apply Hc. lia.
    + intros i Hi. replace (t + i) with (t + 1 + (i - 1)) by lia. apply Hu. lia.
Qed.
End Chain.
