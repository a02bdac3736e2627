(** The periods of a simulation, one after the other. *)
From Coq Require Import ZArith List Bool Lia Permutation.
From Verif Require Import M_Base M_Names M_Bytes M_Exec M_Order M_Exo2endo M_Simul S_Order S_Simul
  L_Order4 L_Order5 L_Exo3 L_Simul L_Simul4 L_Simul5.
Import ListNotations.
Open Scope Z_scope.

Section Chain.
Variable A : arith.
Variable Q : eqns A.
Variable P : params A.
Variable m : model.
Variable o : ordering.
Variables (nb : Z) (exos : list Z) (keys : Z -> nat -> bool).

Notation result_of := (result_of A Q P m o keys).

Lemma periods_before n t s xk norm v p : p < t -> fst (periods A Q P m o nb exos keys n t s xk norm) v p = s v p.
Proof.
  intros H. destruct (periods_only A Q P m o nb exos keys n t s xk norm v p) as [[[K _]|[K _]]|E]; [lia|lia|exact E].
Qed.
Lemma copy_at t s v p : p <= t -> copy_forward A nb t exos s v p = s v p.
Proof. intros H. destruct (copy_only A nb t exos s v p) as [[K _]|E]; [lia|exact E]. Qed.

Lemma periods_chain n : forall t s xk norm s' ok, periods A Q P m o nb exos keys n t s xk norm = (s', ok) ->
  (ok = true -> forall k, 0 <= k < Z.of_nat n -> result_of s' (t + k) CONVERGED) /\
  (ok = false -> exists k why, 0 <= k < Z.of_nat n /\ why <> CONVERGED /\ result_of s' (t + k) why /\
     (forall i, 0 <= i < k -> result_of s' (t + i) CONVERGED) /\
     forall v p, t + k < p -> s' v p <> s v p -> In v exos).
Proof.
  induction n as [|n IH]; intros t s xk norm s' ok H; cbn [periods] in H.
  { inversion H; subst. split; [lia|discriminate]. }
  set (r := simulate_period A Q P m o (keys t) t s xk norm) in *.
  assert (R : forall s2, (forall v, s2 v t = r_s r v t) -> result_of s2 (t + 0) (r_stop r)).
  { intros s2 E. exists s, xk, norm. rewrite Z.add_0_r. split; [reflexivity|exact E]. }
  assert (Bad : r_stop r <> CONVERGED -> (r_s r, false) = (s', ok) ->
    (ok = true -> forall k, 0 <= k < Z.of_nat (S n) -> result_of s' (t + k) CONVERGED) /\
    (ok = false -> exists k why, 0 <= k < Z.of_nat (S n) /\ why <> CONVERGED /\ result_of s' (t + k) why /\
       (forall i, 0 <= i < k -> result_of s' (t + i) CONVERGED) /\
       forall v p, t + k < p -> s' v p <> s v p -> In v exos)).
  { intros Hs E. inversion E; subst. split; [discriminate|]. intros _. exists 0, (r_stop r).
    split; [lia|]. split; [exact Hs|]. split; [now apply R|]. split; [lia|]. intros v p Hp Hd. exfalso. apply Hd.
    destruct (period_only A Q P m o (keys t) t s xk norm v p) as [[-> _]|K]; [lia|exact K]. }
  destruct (r_stop r) eqn:Er; try (apply Bad; [discriminate|exact H]). clear Bad.
  set (s1 := copy_forward A nb t exos (r_s r)) in *.
  assert (F : forall v, s' v t = r_s r v t).
  { intros v. assert (K := periods_before n (t + 1) s1 (r_xk r) (r_norm r) v t ltac:(lia)). rewrite H in K. cbn [fst] in K.
    rewrite K. apply copy_at. lia. }
  destruct (IH (t + 1) s1 (r_xk r) (r_norm r) s' ok H) as [I1 I2]. split.
  - intros Ho k Hk. destruct (Z.eq_dec k 0) as [->|Nk]; [now apply R|].
    replace (t + k) with (t + 1 + (k - 1)) by lia. apply I1; [exact Ho|lia].
  - intros Ho. destruct (I2 Ho) as (k & why & Hk & Hw & Hr & Hc & Hp). exists (k + 1), why.
    split; [lia|]. split; [exact Hw|]. split; [replace (t + (k + 1)) with (t + 1 + k) by lia; exact Hr|]. split.
    + intros i Hi. destruct (Z.eq_dec i 0) as [->|Ni]; [now apply R|].
      replace (t + i) with (t + 1 + (i - 1)) by lia. apply Hc. lia.
    + intros v p Hp' Hd. destruct (copy_only A nb t exos (r_s r) v p) as [[_ K]|E]; [exact K|].
      fold s1 in E. apply (Hp v p); [lia|]. rewrite E. intros K. apply Hd. rewrite K.
      destruct (period_only A Q P m o (keys t) t s xk norm v p) as [[-> _]|J]; [lia|exact J].
Qed.
End Chain.

Lemma run_chain A f d j P vars scl eqs l given sort passes nb at_ bt n keys s norm s' ok :
  NoDup vars -> NoDup (map fst eqs) -> (sort = SORT_NONE -> given = [] \/ Permutation given (map fst eqs)) ->
  run A f d j P vars scl eqs l given sort passes nb at_ bt n keys s norm = Ok (s', ok) ->
  let Q := equations_of A f d j vars eqs in
  (ok = false /\ s' = s) \/
  exists m o, built vars scl eqs l m /\ sorted eqs m given sort o /\
    (ok = true -> forall k, 0 <= k < Z.of_nat n -> result_of A Q P m o keys s' (at_ + k) CONVERGED) /\
    (ok = false -> exists k why, 0 <= k < Z.of_nat n /\ why <> CONVERGED /\ result_of A Q P m o keys s' (at_ + k) why /\
       (forall i, 0 <= i < k -> result_of A Q P m o keys s' (at_ + i) CONVERGED) /\
       forall v p, at_ + k < p -> s' v p <> s v p -> In v (map (fun c => pos_of vars (snd c)) l)).
Proof.
  intros NV NE Hs. unfold run. destruct eqs as [|q eqs]; [intros H; inversion H; auto|]. set (D := q :: eqs) in *. clearbody D. clear q eqs.
  destruct (_ || _); [intros H; inversion H; auto|].
  destruct (link_model vars scl D) as [[m0|]| |] eqn:E1; try discriminate; cbn [rbind]; [|intros H; inversion H; auto].
  destruct (exchanges vars (map fst D) m0 l) as [[m|]| |] eqn:E2; try discriminate; cbn [rbind]; [|intros H; inversion H; auto].
  destruct (order m (map fst D) given sort passes) as [o| |] eqn:E3; try discriminate; cbn [rbind].
  intros H. injection H as H1. right. exists m, o.
  split; [split; [exact NV|split; [exact NE|eauto]]|]. split; [split; eauto|]. unfold simulate in H1.
  now apply periods_chain in H1.
Qed.
