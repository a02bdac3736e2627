(** Statistics of an estimation, on the real numbers. *)
From Coq Require Import ZArith List Bool Lia Reals Lra Field.
From Verif Require Import M_Base M_Exec M_Real M_Matrix M_Estim S_Matrix S_Estim L_Matrix L_Estim L_Estim2.
Import ListNotations.
Open Scope R_scope.

Definition SumR (n : nat) (f : nat -> R) : R := Sum reals n f.
Lemma sum_S n (f : nat -> R) : SumR (S n) f = SumR n f + f n.
Proof. reflexivity. Qed.
Lemma sum_le n : forall f g : nat -> R, (forall k, (k < n)%nat -> f k <= g k) -> SumR n f <= SumR n g.
Proof. induction n as [|n IH]; intros f g H; [apply Rle_refl|]. rewrite !sum_S. apply Rplus_le_compat; [apply IH; intros; apply H; lia|apply H; lia]. Qed.
Lemma sum_nonneg n (f : nat -> R) : (forall k, (k < n)%nat -> 0 <= f k) -> 0 <= SumR n f.
Proof. induction n as [|n IH]; intros H; [apply Rle_refl|]. rewrite sum_S. pose proof (H n ltac:(lia)). pose proof (IH ltac:(intros; apply H; lia)). lra. Qed.
Lemma sum_plus n (f g : nat -> R) : SumR n (fun k => f k + g k) = SumR n f + SumR n g.
Proof. exact (Sum_add reals reals_field n f g). Qed.
Lemma sum_mult n (x : R) (f : nat -> R) : SumR n (fun k => x * f k) = x * SumR n f.
Proof. exact (Sum_scale reals reals_field n x f). Qed.
Lemma sum_ext n (f g : nat -> R) : (forall k, (k < n)%nat -> f k = g k) -> SumR n f = SumR n g.
Proof. exact (Sum_ext reals n f g). Qed.
Lemma sum_zero_sq n (f : nat -> R) : SumR n (fun k => f k * f k) = 0 -> forall k, (k < n)%nat -> f k = 0.
Proof.
  induction n as [|n IH]; intros H k Hk; [lia|]. rewrite sum_S in H. pose proof (sum_nonneg n (fun k => f k * f k) ltac:(intros; exact (Rle_0_sqr _))). cbn beta in * .
  assert (f n * f n = 0) by nra. destruct (Nat.eq_dec k n) as [->|]; [nra|]. apply IH; [nra|lia].
Qed.
Lemma sum_head n (f : nat -> R) : SumR (S n) f = f O + SumR n (fun k => f (S k)).
Proof. exact (Sum_head reals reals_field n f). Qed.
(** Neighbours. *)
Lemma neighbours n (u : nat -> R) : SumR n (fun k => (u (k + 1)%nat - u k) * (u (k + 1)%nat - u k)) <= 4 * SumR (S n) (fun k => u k * u k).
Proof.
  assert (H1 : SumR n (fun k => u k * u k) <= SumR (S n) (fun k => u k * u k)) by (rewrite sum_S; nra).
  assert (H2 : SumR n (fun k => u (k + 1)%nat * u (k + 1)%nat) <= SumR (S n) (fun k => u k * u k)).
  { rewrite sum_head. rewrite (sum_ext n (fun k => u (k + 1)%nat * u (k + 1)%nat) (fun k => u (S k) * u (S k))) by (intros k Hk; rewrite Nat.add_1_r; reflexivity). nra. }
  assert (H3 : SumR n (fun k => (u (k + 1)%nat - u k) * (u (k + 1)%nat - u k)) <= SumR n (fun k => 2 * (u (k + 1)%nat * u (k + 1)%nat) + 2 * (u k * u k))).
  { apply sum_le. intros k Hk. pose proof (Rle_0_sqr (u (k + 1)%nat + u k)) as Q. unfold Rsqr in Q. nra. }
  rewrite sum_plus, !sum_mult in H3. lra.
Qed.
(** Cauchy and Schwarz. *)
Lemma cauchy n (f g : nat -> R) : SumR n (fun k => f k * g k) * SumR n (fun k => f k * g k) <= SumR n (fun k => f k * f k) * SumR n (fun k => g k * g k).
Proof.
  set (a := SumR n (fun k => f k * f k)). set (b := SumR n (fun k => g k * g k)). set (x := SumR n (fun k => f k * g k)).
  assert (Ha : 0 <= a) by (apply sum_nonneg; intros; exact (Rle_0_sqr _)).
  assert (Q : 0 <= SumR n (fun k => (a * g k - x * f k) * (a * g k - x * f k))) by (apply sum_nonneg; intros; exact (Rle_0_sqr _)).
  rewrite (sum_ext n _ (fun k => a * a * (g k * g k) + ((- 2 * a * x) * (f k * g k) + x * x * (f k * f k)))) in Q by (intros; ring).
  rewrite !sum_plus, !sum_mult in Q. fold a b x in Q. destruct (Req_dec a 0) as [Z|N].
  - unfold a in Z. assert (X0 : x = 0). { unfold x. rewrite (sum_ext n _ (fun k => 0 * 0)). - rewrite sum_mult. ring. - intros k Hk. rewrite (sum_zero_sq n f Z k Hk). ring. }
    rewrite X0. fold a in Z. rewrite Z. lra.
  - assert (0 < a) by lra. assert (0 <= a * (a * b - x * x)) by (replace (a * (a * b - x * x)) with (a * a * b + (-2 * a * x * x + x * x * a)) by ring; lra).
    assert (0 <= a * b - x * x) by (apply Rmult_le_reg_l with a; [assumption|lra]). lra.
Qed.

Section Stats.
Context (p : problem reals) (c : list R) (s : state reals) (Est : E_est reals p c = Found s).
Notation res i t := (residual reals p (coefs s) i t).
Notation SSR i := (SumR (T p) (fun t => res i t * res i t)).
Notation SST i := (SumR (T p) (fun t => (get (lhs p) i t - SumR (T p) (get (lhs p) i) / INR (T p)) * (get (lhs p) i t - SumR (T p) (get (lhs p) i) / INR (T p)))).
Notation nT := (IZR (Z.of_nat (T p))).
Lemma nT_INR : nT = INR (T p).
Proof. symmetry. apply INR_IZR_INZ. Qed.
Lemma vcu_at i j : (i < NEQ p)%nat -> (j < NEQ p)%nat -> @Logic.eq R (get (m_vcu s) i j) (SumR (T p) (fun t => res i t * res j t) / nT).
Proof. intros Hi Hj. destruct (found_solved reals reals_field p c s Est) as (H & _). exact (H i j Hi Hj). Qed.
Lemma T_pos : (0 < NEQ p)%nat -> 0 < nT.
Proof.
  intros N. destruct (T p) as [|n] eqn:E; [exfalso|apply IZR_lt; lia].
  destruct (found_solved reals reals_field p c s Est) as (H & I & _). pose proof (I 0%nat 0%nat N N) as K. cbn [Nat.eqb] in K.
  rewrite (Sum_zero reals reals_field) in K; [cbn in K; lra|]. intros k Hk. rewrite (H 0%nat k N Hk), E. cbn. unfold Rdiv. lra.
Qed.
Lemma SSRES_spec i : (i < NEQ p)%nat -> @Logic.eq R (SSRES reals p s i) (SSR i).
Proof. intros Hi. unfold SSRES. rewrite (vcu_at i i Hi Hi). cbn [reals mul ofZ]. pose proof (T_pos ltac:(lia)). field. lra. Qed.
Lemma SSRES_spec' i : (i < NEQ p)%nat -> @Logic.eq R (nT * get (m_vcu s) i i) (SSR i).
Proof. intros Hi. rewrite <- (SSRES_spec i Hi). unfold SSRES. cbn [reals mul ofZ]. ring. Qed.
Lemma SSR_nonneg i : 0 <= SSR i.
Proof. apply sum_nonneg. intros. exact (Rle_0_sqr _). Qed.
Lemma SST_nonneg i : 0 <= SST i.
Proof. apply sum_nonneg. intros. exact (Rle_0_sqr _). Qed.
Lemma E_div_0_def a b : @Logic.eq R (E_div_0 reals a b) (if Req_EM_T b 0 then 0 else a / b).
Proof. unfold E_div_0. cbn. unfold r_eq. destruct (Req_EM_T b 0); reflexivity. Qed.
Lemma E_sqrt_def x : @Logic.eq R (E_sqrt reals x) (R_sqrt.sqrt x).
Proof. unfold E_sqrt. cbn. unfold r_lt. destruct (Rlt_dec x 0); [|reflexivity]. symmetry. apply sqrt_neg_0. lra. Qed.
Lemma MEAN_spec i : @Logic.eq R (MEAN_Y reals p i) (SumR (T p) (get (lhs p) i) / INR (T p)).
Proof. unfold MEAN_Y. rewrite (total_Sum reals). cbn [reals dvd ofZ]. rewrite nT_INR. reflexivity. Qed.
Lemma DEV2_spec i : @Logic.eq R (DEV2 reals p i) (SST i).
Proof. unfold DEV2. rewrite (total_Sum reals). apply sum_ext. intros t Ht. rewrite MEAN_spec. reflexivity. Qed.
Lemma DW_spec i : (i < NEQ p)%nat -> @Logic.eq R (DW reals p s i)
  (if Req_EM_T (SSR i) 0 then 0 else SumR (T p - 1) (fun t => (res i (t + 1)%nat - res i t) * (res i (t + 1)%nat - res i t)) / SSR i).
Proof.
  intros Hi. unfold DW. rewrite E_div_0_def. cbn [reals mul ofZ]. rewrite (SSRES_spec' i Hi). destruct (Req_EM_T _ 0); [reflexivity|]. f_equal. rewrite (total_Sum reals).
  apply sum_ext. intros t Ht. destruct (found_solved reals reals_field p c s Est) as (_ & _ & K).
  rewrite (proj2 (K i (t + 1)%nat Hi ltac:(lia))), (proj2 (K i t Hi ltac:(lia))). reflexivity.
Qed.
Lemma DW_bounds i : (i < NEQ p)%nat -> 0 <= DW reals p s i <= 4.
Proof.
  intros Hi. rewrite (DW_spec i Hi). destruct (Req_EM_T (SSR i) 0) as [|N]; [lra|]. pose proof (SSR_nonneg i) as P. assert (P' : 0 < SSR i) by lra.
  pose proof (sum_nonneg (T p - 1) (fun t => (res i (t + 1)%nat - res i t) * (res i (t + 1)%nat - res i t)) ltac:(intros; exact (Rle_0_sqr _))) as Q.
  pose proof (neighbours (T p - 1) (fun t => res i t)) as B. cbn beta in B. assert (T0 : T p <> 0%nat) by (intros E; rewrite E in P'; unfold SumR in P'; cbn in P'; lra). replace (S (T p - 1)) with (T p) in B by lia.
  split; [apply Rmult_le_pos; [exact Q|left; apply Rinv_0_lt_compat; exact P']|]. apply Rmult_le_reg_r with (SSR i); [exact P'|]. unfold Rdiv. rewrite Rmult_assoc, Rinv_l by exact N. rewrite Rmult_1_r. exact B.
Qed.
Lemma RSQUARE_spec i : (i < NEQ p)%nat -> @Logic.eq R (RSQUARE reals p s i) (if Req_EM_T (SST i) 0 then 1 else 1 - SSR i / SST i).
Proof.
  intros Hi. unfold RSQUARE. rewrite E_div_0_def, DEV2_spec. cbn [reals mul sub ofZ]. rewrite (SSRES_spec' i Hi). destruct (Req_EM_T _ 0); [lra|reflexivity].
Qed.
Lemma RSQUARE_le i : (i < NEQ p)%nat -> RSQUARE reals p s i <= 1.
Proof.
  intros Hi. rewrite (RSQUARE_spec i Hi). destruct (Req_EM_T _ 0) as [|N]; [lra|]. pose proof (SSR_nonneg i). pose proof (SST_nonneg i). assert (0 < SST i) by lra.
  assert (0 <= SSR i / SST i) by (apply Rmult_le_pos; [assumption|left; apply Rinv_0_lt_compat; assumption]). lra.
Qed.
Lemma RADJ_le i : (i < NEQ p)%nat -> (1 <= NBCE reals p i < T p)%nat -> RSQUARE_ADJ reals p s i <= RSQUARE reals p s i.
Proof.
  intros Hi Hn. unfold RSQUARE_ADJ. rewrite E_div_0_def. cbn [reals mul sub ofZ]. set (r := RSQUARE reals p s i). pose proof (RSQUARE_le i Hi) as L. fold r in L.
  set (n := NBCE reals p i) in * . assert (P : 0 < nT - IZR (Z.of_nat n)) by (rewrite <- minus_IZR; apply IZR_lt; lia). destruct (Req_EM_T _ 0) as [Z|_]; [lra|].
  assert (Q : 1 <= IZR (Z.of_nat (T p) - 1) / (nT - IZR (Z.of_nat n))).
  { apply Rmult_le_reg_r with (nT - IZR (Z.of_nat n)); [exact P|]. unfold Rdiv. rewrite Rmult_assoc, Rinv_l by lra. rewrite Rmult_1_l, Rmult_1_r, <- minus_IZR. apply IZR_le. lia. }
  unfold Rdiv in * . rewrite Rmult_assoc. set (q := IZR _ * _) in * . nra.
Qed.
(** Correlations between the residuals. *)
Lemma max_min_sym (f : nat -> nat -> R) i j : (forall a b, f a b = f b a) -> f (Nat.max i j) (Nat.min i j) = f i j.
Proof. intros H. destruct (Nat.le_ge_cases i j); [rewrite Nat.max_r, Nat.min_l by assumption; apply H|rewrite Nat.max_l, Nat.min_r by assumption; reflexivity]. Qed.
Lemma MCORRU_spec i j : (i < NEQ p)%nat -> (j < NEQ p)%nat -> @Logic.eq R (get (E_MCORRU reals p s) i j)
  (if Req_EM_T (R_sqrt.sqrt (SSR i * SSR j)) 0 then 0 else SumR (T p) (fun t => res i t * res j t) / R_sqrt.sqrt (SSR i * SSR j)).
Proof.
  intros Hi Hj. unfold E_MCORRU. rewrite get_build by assumption.
  set (a := Nat.max i j). set (b := Nat.min i j). assert (Ha : (a < NEQ p)%nat) by (unfold a; lia). assert (Hb : (b < NEQ p)%nat) by (unfold b; lia).
  rewrite E_div_0_def, E_sqrt_def. cbn [reals mul]. rewrite !vcu_at by assumption. pose proof (T_pos ltac:(lia)) as P.
  replace (SSR a / nT * (SSR b / nT)) with (SSR a * SSR b * (/ nT * / nT)) by (field; lra).
  rewrite sqrt_mult by (try apply Rmult_le_pos; try apply SSR_nonneg; left; apply Rinv_0_lt_compat; exact P). rewrite (sqrt_square (/ nT)) by (left; apply Rinv_0_lt_compat; exact P).
  assert (Es : SSR a * SSR b = SSR i * SSR j) by (apply (max_min_sym (fun x y => SSR x * SSR y)); intros; ring).
  assert (Ec : SumR (T p) (fun t => res a t * res b t) = SumR (T p) (fun t => res i t * res j t)) by (apply (max_min_sym (fun x y => SumR (T p) (fun t => res x t * res y t))); intros; apply sum_ext; intros; ring).
  rewrite Es, Ec. set (q := R_sqrt.sqrt _). pose proof (Rinv_0_lt_compat _ P) as Pi.
  destruct (Req_EM_T (q * / nT) 0) as [Z|N], (Req_EM_T q 0) as [Z'|N']; try reflexivity.
  - exfalso. apply N'. apply Rmult_integral in Z. destruct Z; [assumption|lra].
  - exfalso. apply N. rewrite Z'. ring.
  - field. split; [exact N'|lra].
Qed.
Lemma MCORRU_bounds i j : (i < NEQ p)%nat -> (j < NEQ p)%nat -> -1 <= get (E_MCORRU reals p s) i j <= 1.
Proof.
  intros Hi Hj. rewrite MCORRU_spec by assumption. destruct (Req_EM_T _ 0) as [|N]; [lra|].
  pose proof (cauchy (T p) (fun t => res i t) (fun t => res j t)) as C. cbn beta in C. set (x := SumR (T p) (fun t => res i t * res j t)) in * .
  pose proof (Rmult_le_pos _ _ (SSR_nonneg i) (SSR_nonneg j)) as P. pose proof (sqrt_pos (SSR i * SSR j)) as Q. pose proof (sqrt_sqrt _ P) as E.
  set (q := R_sqrt.sqrt _) in * . assert (Pq : 0 < q) by lra. rewrite <- E in C. assert (A : Rabs x <= q) by (apply Rsqr_le_abs_0 in C; rewrite (Rabs_right q) in C by lra; exact C).
  apply Rabs_le_between in A || (unfold Rabs in A; destruct (Rcase_abs x)). all: split; apply Rmult_le_reg_r with q; try exact Pq; unfold Rdiv; rewrite ?Rmult_assoc, ?Rinv_l by lra; lra.
Qed.
End Stats.
