(** The filter finds the trend. *)
From Coq Require Import ZArith List Bool Lia Reals Lra Field ZifyBool Psatz.
From Verif Require Import M_Base M_Exec M_Real M_Matrix M_Hodrick S_Matrix S_Hodrick L_Matrix L_Estim2 L_Estim3 L_Hodrick L_Hodrick2.
Import ListNotations.
Open Scope R_scope.

Section Filter.
Context (n : nat) (l : R) (L : l = 0 \/ 2 * eps <= l) (N4 : (4 <= n)%nat).

Lemma start_shape b : shape n l 0 (mkE 0 0 0) (mkSys (HP_matrix reals n l) b).
Proof.
  intros i j Hi Hj. change (s_a (mkSys (HP_matrix reals n l) b)) with (HP_matrix reals n l). rewrite matrix_at by lia. unfold left_at. cbn [eA eB eG Nat.add].
  replace (Nat.ltb 2 n) with true by lia. replace (Nat.ltb 3 n) with true by lia. unfold on. unfold H. rewrite d_over. unfold d, I. cases; cbn [andb orb]; ring.
Qed.
Lemma steps_shape b : forall r s, (r + 1 < n)%nat -> gel_steps reals n (seq 0 r) (mkSys (HP_matrix reals n l) b) = Some s ->
  exists e, good l e /\ shape n l r e s /\ ((0 < r)%nat -> l / (l + 1) <= eG e).
Proof.
  induction r as [|r IH]; intros s Hr E.
  - cbn in E. injection E as <-. exists (mkE 0 0 0). split; [split; [unfold sound; cbn; lra|intros _; cbn; lra]|]. split; [apply start_shape|lia].
  - rewrite seq_S, gel_steps_app in E. cbn [Nat.add] in E. destruct (gel_steps reals n (seq 0 r) _) as [s1|] eqn:E1; [|discriminate].
    destruct (IH s1 ltac:(lia) eq_refl) as (e & Ge & Sh & _). cbn [gel_steps] in E. destruct (gel_step reals n r s1) as [s2|] eqn:E2; [|discriminate]. injection E as <-.
    exists (next l e). split; [apply next_good; assumption|]. split; [|intros _; apply next_G; [apply l_pos; exact L|apply Ge]].
    replace (S r) with (r + 1)%nat by lia. eapply step_shape; try eassumption. lia.
Qed.
(** The last two lines. *)
Lemma last_lines r e s : (r + 2 = n)%nat -> (0 < r)%nat -> good l e -> shape n l r e s -> l / (l + 1) <= eG e ->
  @Logic.eq R (get (s_a s) r r) (eA e + 2 * eB e + eG e + 1) /\ @Logic.eq R (get (s_a s) (r + 1) r) (- (eB e + eG e)) /\ @Logic.eq R (get (s_a s) r (r + 1)) (- (eB e + eG e))
  /\ @Logic.eq R (get (s_a s) (r + 1) (r + 1)) (eG e + 1).
Proof.
  intros Hr R0 Ge Sh _. rewrite (Sh r r), (Sh (r + 1)%nat r), (Sh r (r + 1)%nat), (Sh (r + 1)%nat (r + 1)%nat) by lia. unfold left_at.
  replace (Nat.ltb (r + 2) n) with false by lia. replace (Nat.ltb (r + 3) n) with false by lia. unfold on. repeat split; cases; cbn [andb orb]; ring.
Qed.
Lemma last_zero r e s : (r + 2 = n)%nat -> (0 < r)%nat -> good l e -> shape n l r e s -> l / (l + 1) <= eG e ->
  ZERO reals (get (s_a s) (r + 1) r) = true -> @Logic.eq R (get (s_a s) (r + 1) r) 0.
Proof.
  intros Hr R0 Ge Sh Q Z. destruct (last_lines r e s Hr R0 Ge Sh Q) as (_ & E1 & _). rewrite E1 in * . apply ZERO_def in Z. destruct Ge as ((A & B & G & _) & Z0).
  rewrite Rabs_Ropp, Rabs_right in Z by lra. pose proof eps_pos as Ep. pose proof eps_small as Es. destruct L as [E|E]; [destruct (Z0 E) as (-> & ->); ring|exfalso].
  assert (K : eps <= l / (l + 1)); [|lra]. apply (Rmult_le_reg_r (l + 1)); [lra|]. unfold Rdiv. rewrite Rmult_assoc, Rinv_l, Rmult_1_r by lra. nra.
Qed.
Lemma filter_no_tiny b : no_tiny reals n (HP_matrix reals n l) b.
Proof.
  intros r s Hr E i Hi Z. destruct (Nat.lt_ge_cases (r + 2) n) as [C|C].
  - destruct (steps_shape b r s ltac:(lia) E) as (e & Ge & Sh & _). destruct (Nat.eq_dec i r) as [->|Ni].
    + exfalso. rewrite (pivot_not_zero n l L r e s Ge Sh C) in Z. discriminate.
    + apply (col_zero n l L r e s Ge Sh i C); [lia|exact Z].
  - destruct (Nat.eq_dec (r + 2) n) as [C2|C2].
    + destruct (steps_shape b r s ltac:(lia) E) as (e & Ge & Sh & Q). specialize (Q ltac:(lia)). destruct (Nat.eq_dec i r) as [->|Ni].
      * exfalso. destruct (last_lines r e s C2 ltac:(lia) Ge Sh Q) as (E0 & _). rewrite E0 in Z. rewrite ZERO_big in Z; [discriminate|]. destruct Ge as ((A & B & G & _) & _). lra.
      * replace i with (r + 1)%nat in * by lia. apply (last_zero r e s); try assumption. lia.
    + assert (i = r) by lia. subst i. exfalso. destruct r as [|r]; [lia|]. rewrite seq_S, gel_steps_app in E. cbn [Nat.add] in E.
      destruct (gel_steps reals n (seq 0 r) _) as [s1|] eqn:E1; [|discriminate]. cbn [gel_steps] in E. destruct (gel_step reals n r s1) as [s2|] eqn:E2; [|discriminate]. injection E as <-.
      destruct (steps_shape b r s1 ltac:(lia) E1) as (e & Ge & Sh & Q). specialize (Q ltac:(lia)). destruct (last_lines r e s1 ltac:(lia) ltac:(lia) Ge Sh Q) as (F0 & F1 & F2 & F3).
      pose proof Ge as ((A & B & G & K) & _). assert (Zr : ZERO reals (get (s_a s1) r r) = false) by (rewrite F0; apply ZERO_big; lra).
      replace (S r) with (r + 1)%nat in Z by lia.
      rewrite (step_values n r s1 s2 E2 Zr (r + 1) (r + 1)) in Z; [|lia|lia|intros Y; apply (last_zero r e s1); try assumption; lia]. rewrite F0, F1, F2, F3 in Z.
      rewrite ZERO_big in Z; [discriminate|]. set (p := eA e + 2 * eB e + eG e + 1) in * . assert (P : 1 <= p) by (unfold p; lra).
      apply (Rmult_le_reg_r p); [lra|]. replace ((eG e + 1 - - (eB e + eG e) / p * - (eB e + eG e)) * p) with ((eG e + 1) * p - (eB e + eG e) * (eB e + eG e)) by (field; lra). unfold p. nra.
Qed.

(** * The system *)

Definition fn (x : list R) (k : nat) : R := nth k x 0.
Lemma row_at x i : (i < n)%nat -> @Logic.eq R (row_times reals n (HP_matrix reals n l) x i) (SumR n (fun j => H n l i j * fn x j)).
Proof. intros Hi. unfold row_times. apply (Sum_ext reals). intros k Hk. rewrite matrix_at by assumption. reflexivity. Qed.
Lemma squares_zero (x : nat -> R) : SumR n (fun i => x i * x i) + l * SumR (n - 2) (fun k => second x k * second x k) <= 0 -> forall k, (k < n)%nat -> x k = 0.
Proof.
  intros Q. pose proof (l_pos l L) as L0. assert (0 <= SumR n (fun i => x i * x i)) by (apply sum_nonneg; intros; exact (Rle_0_sqr _)).
  assert (0 <= SumR (n - 2) (fun k => second x k * second x k)) by (apply sum_nonneg; intros; exact (Rle_0_sqr _)).
  assert (0 <= l * SumR (n - 2) (fun k => second x k * second x k)) by (apply Rmult_le_pos; assumption).
  apply sum_zero_sq. lra.
Qed.
Lemma not_singular : ~ singular reals n (HP_matrix reals n l).
Proof.
  intros (x & Lx & Zx & k & Hk & Nk). apply Nk. change (fn x k = 0). apply squares_zero; [|exact Hk]. rewrite <- form.
  apply Req_le. unfold SumR. apply (Sum_zero reals reals_field). intros i Hi. rewrite <- row_at by exact Hi. rewrite (Zx i Hi). cbn. ring.
Qed.
Lemma solved (y : list R) : length y = n -> exists g, M_solve reals n (HP_matrix reals n l) y = Some g /\ solution reals n (HP_matrix reals n l) g y.
Proof.
  intros Ly. destruct (M_solve reals n (HP_matrix reals n l) y) as [g|] eqn:E.
  - exists g. split; [reflexivity|]. apply (M_solve_ok reals reals_field n _ y g); [apply filter_no_tiny|exact Ly|exact E].
  - exfalso. apply not_singular. apply (M_solve_none reals reals_field n _ y); [lia|apply filter_no_tiny|exact Ly|exact E].
Qed.
Lemma list_ext (x y : list R) : length x = n -> length y = n -> (forall k, (k < n)%nat -> fn x k = fn y k) -> x = y.
Proof. intros Lx Ly E. apply nth_ext with (d := 0) (d' := 0); [congruence|]. intros k Hk. apply E. lia. Qed.
Lemma second_sub (x y : nat -> R) k : second (fun i => x i - y i) k = second x k - second y k.
Proof. unfold second. ring. Qed.
Lemma sum_minus m (f g : nat -> R) : SumR m (fun k => f k - g k) = SumR m f - SumR m g.
Proof. rewrite (sum_ext m _ (fun k => f k + -1 * g k)) by (intros; ring). rewrite sum_plus, sum_mult. ring. Qed.
(** The difference of the criteria. *)
Lemma criterion_gap (y g g' : list R) : length y = n -> solution reals n (HP_matrix reals n l) g y ->
  let u k := fn g' k - fn g k in
  criterion l y g' = criterion l y g + (SumR n (fun k => u k * u k) + l * SumR (n - 2) (fun k => second u k * second u k)).
Proof.
  intros Ly (Lg & Eg) u. unfold criterion, distance, roughness. rewrite Ly. rewrite (sum_to_eq n (fun k => (at_ y k - at_ g' k) * (at_ y k - at_ g' k))), (sum_to_eq n (fun k => (at_ y k - at_ g k) * (at_ y k - at_ g k))), (sum_to_eq (n - 2) (fun k => second (at_ g') k * second (at_ g') k)), (sum_to_eq (n - 2) (fun k => second (at_ g) k * second (at_ g) k)).
  assert (O : SumR n (fun i => u i * (SumR n (fun j => H n l i j * fn g j) - fn y i)) = 0).
  { unfold SumR at 1. apply (Sum_zero reals reals_field). intros i Hi. pose proof (Eg i Hi) as K. rewrite row_at in K by exact Hi. rewrite K.
    change (u i * (fn y i - fn y i) = 0). ring. }
  rewrite (sum_ext n _ (fun i => u i * SumR n (fun j => H n l i j * fn g j) - u i * fn y i)) in O by (intros; ring). rewrite sum_minus, form in O.
  assert (D1 : SumR n (fun k => (at_ y k - at_ g' k) * (at_ y k - at_ g' k)) = SumR n (fun k => (at_ y k - at_ g k) * (at_ y k - at_ g k)) + SumR n (fun k => u k * u k)
    + 2 * (SumR n (fun k => u k * fn g k) - SumR n (fun k => u k * fn y k))).
  { rewrite <- sum_minus, <- sum_mult, <- !sum_plus. apply sum_ext. intros k Hk. unfold u, at_, fn. ring. }
  assert (D2 : SumR (n - 2) (fun k => second (at_ g') k * second (at_ g') k) = SumR (n - 2) (fun k => second (at_ g) k * second (at_ g) k)
    + SumR (n - 2) (fun k => second u k * second u k) + 2 * SumR (n - 2) (fun k => second u k * second (fn g) k)).
  { rewrite <- sum_mult, <- !sum_plus. apply sum_ext. intros k Hk. unfold u. rewrite second_sub. unfold at_, fn. ring. }
  rewrite D1, D2. nra.
Qed.
Lemma solution_trend (y g : list R) : length y = n -> solution reals n (HP_matrix reals n l) g y -> trend l y g.
Proof.
  intros Ly S. split; [rewrite Ly; apply S|]. intros g' Lg' Ne. set (u := fun k => fn g' k - fn g k).
  assert (Gap : criterion l y g' = criterion l y g + (SumR n (fun k => u k * u k) + l * SumR (n - 2) (fun k => second u k * second u k))) by exact (criterion_gap y g g' Ly S).
  destruct (Rlt_le_dec 0 (SumR n (fun k => u k * u k) + l * SumR (n - 2) (fun k => second u k * second u k))) as [P|P]; [lra|exfalso].
  apply Ne. apply list_ext; [congruence|apply S|]. intros k Hk. pose proof (squares_zero u P k Hk) as Z. unfold u in Z. lra.
Qed.
End Filter.
Lemma trend_unique l y g g' : trend l y g -> trend l y g' -> g = g'.
Proof.
  intros (L1 & M1) (L2 & M2). destruct (list_eq_dec Req_EM_T g g') as [E|N]; [exact E|exfalso].
  pose proof (M1 g' L2 (fun E => N (eq_sym E))). pose proof (M2 g L1 N). lra.
Qed.
