(** Statistics of an estimation. *)
From Coq Require Import ZArith List Bool Lia QArith Qcanon Reals Lra Field.
From Verif Require Import M_Base M_Exec M_Exact M_Real M_Matrix M_Estim S_Matrix S_Estim L_Matrix L_Estim L_Estim2 L_Estim3 T_Matrix T_Estim.
Import ListNotations.
Open Scope R_scope.

(** * C85: the statistics that follow an estimation *)

(** Sum of squares of the residuals; of the differences with the mean of the left hand side. *)
Definition SSR (p : problem reals) (s : state reals) (i : nat) : R := SumR (T p) (fun t => residual reals p (coefs s) i t * residual reals p (coefs s) i t).
Definition mean (p : problem reals) (i : nat) : R := SumR (T p) (get (lhs p) i) / INR (T p).
Definition SST (p : problem reals) (i : nat) : R := SumR (T p) (fun t => (get (lhs p) i t - mean p i) * (get (lhs p) i t - mean p i)).

(** For every method, every equation of the block (linear or not), after a success: the statistics are those of the residuals
    with the final coefficients. *)
Theorem C85_equation : forall p c s, E_est reals p c = Found s -> forall i, (i < NEQ p)%nat ->
  (0 < T p)%nat
  /\ SSRES reals p s i = SSR p s i
  /\ ((NBCE reals p i < T p)%nat -> STDERR reals p s i = R_sqrt.sqrt (SSR p s i / (INR (T p) - INR (NBCE reals p i))))
  /\ MEAN_Y reals p i = mean p i
  /\ STDEV reals p i = R_sqrt.sqrt (SST p i / (INR (T p) - 1))
  /\ (SST p i <> 0 -> RSQUARE reals p s i = 1 - SSR p s i / SST p i)
  /\ (SSR p s i <> 0 -> DW reals p s i = SumR (T p - 1) (fun t => (residual reals p (coefs s) i (t + 1) - residual reals p (coefs s) i t) ^ 2) / SSR p s i).
Proof.
  intros p c s E i Hi. pose proof (T_pos p c s E ltac:(lia)) as P. assert (T0 : (0 < T p)%nat) by (apply lt_IZR in P; lia).
  split; [exact T0|]. split; [exact (SSRES_spec p c s E i Hi)|]. split.
  - intros Hn. unfold STDERR. rewrite E_sqrt_def, E_div_0_def. fold (SSRES reals p s i). rewrite (SSRES_spec p c s E i Hi). cbn [reals sub ofZ]. rewrite <- !INR_IZR_INZ.
    destruct (Req_EM_T _ 0) as [Z|_]; [|reflexivity]. exfalso. apply lt_INR in Hn. lra.
  - split; [exact (MEAN_spec p i)|]. split.
    + unfold STDEV. rewrite E_sqrt_def, DEV2_spec. cbn [reals dvd ofZ]. rewrite minus_IZR, <- INR_IZR_INZ. reflexivity.
    + split.
      * intros N. rewrite (RSQUARE_spec p c s E i Hi). destruct (Req_EM_T _ 0) as [Z|_]; [contradiction|reflexivity].
      * intros N. rewrite (DW_spec p c s E i Hi). destruct (Req_EM_T _ 0) as [Z|_]; [contradiction|]. f_equal. apply sum_ext. intros t Ht. ring.
Qed.
(** Durbin-Watson is between 0 and 4, R2 is at most 1, the adjusted R2 is at most R2, correlations are between -1 and 1. *)
Theorem C85_bounds : forall p c s, E_est reals p c = Found s -> forall i, (i < NEQ p)%nat ->
  0 <= DW reals p s i <= 4
  /\ RSQUARE reals p s i <= 1
  /\ ((1 <= NBCE reals p i < T p)%nat -> RSQUARE_ADJ reals p s i <= RSQUARE reals p s i)
  /\ forall j, (j < NEQ p)%nat -> -1 <= get (E_MCORRU reals p s) i j <= 1.
Proof.
  intros p c s E i Hi. split; [exact (DW_bounds p c s E i Hi)|]. split; [exact (RSQUARE_le p c s E i Hi)|]. split; [exact (RADJ_le p c s E i Hi)|].
  intros j Hj. exact (MCORRU_bounds p c s E i j Hi Hj).
Qed.
(** The correlation of two equations is the cosine of their residuals: 1 between an equation and itself. *)
Theorem C85_correlations : forall p c s, E_est reals p c = Found s -> forall i j, (i < NEQ p)%nat -> (j < NEQ p)%nat -> SSR p s i <> 0 -> SSR p s j <> 0 ->
  get (E_MCORRU reals p s) i j = SumR (T p) (fun t => residual reals p (coefs s) i t * residual reals p (coefs s) j t) / R_sqrt.sqrt (SSR p s i * SSR p s j)
  /\ get (E_MCORRU reals p s) i i = 1.
Proof.
  intros p c s E i j Hi Hj Ni Nj.
  assert (K : forall a, SSR p s a <> 0 -> 0 < SSR p s a) by (intros a N; pose proof (SSR_nonneg p s a); unfold SSR in * ; lra).
  assert (S0 : forall a b, SSR p s a <> 0 -> SSR p s b <> 0 -> R_sqrt.sqrt (SSR p s a * SSR p s b) <> 0).
  { intros a b Na Nb Z. apply sqrt_eq_0 in Z; [|apply Rmult_le_pos; left; apply K; assumption]. apply Rmult_integral in Z. destruct Z; contradiction. }
  split.
  - rewrite (MCORRU_spec p c s E i j Hi Hj). fold (SSR p s i) (SSR p s j). destruct (Req_EM_T _ 0) as [Z|_]; [|reflexivity]. exfalso. exact (S0 i j Ni Nj Z).
  - rewrite (MCORRU_spec p c s E i i Hi Hi). fold (SSR p s i). destruct (Req_EM_T _ 0) as [Z|_]; [exfalso; exact (S0 i i Ni Ni Z)|].
    rewrite sqrt_square by (left; apply K; exact Ni). cbn [reals ofZ]. match goal with |- ?x = ?y => change (@Logic.eq R x y) end. field. exact Ni.
Qed.
(** The F statistic compares, per degree of freedom, what the equation explains with what it does not; the standard error in
    percent is relative to the mean of the left hand side. *)
Theorem C85_tests : forall p c s, E_est reals p c = Found s -> forall i, (i < NEQ p)%nat ->
  let k := NBCE reals p i in
  ((1 < k < T p)%nat -> SST p i <> 0 -> SSR p s i <> 0 ->
     FSTAT reals p s i = ((SST p i - SSR p s i) / (INR k - 1)) / (SSR p s i / (INR (T p) - INR k)))
  /\ ((k < T p)%nat -> mean p i <> 0 ->
     STD_PCT reals p s i * mean p i = 100 * R_sqrt.sqrt (SSR p s i / (INR (T p) - INR k))).
Proof.
  intros p c s E i Hi k. destruct (C85_equation p c s E i Hi) as (T0 & _ & Hse & Hm & _ & Hr & _). split.
  - intros Hk N1 N2. unfold FSTAT. rewrite E_div_0_def, (Hr N1). fold k. cbn [reals mul sub ofZ]. rewrite <- !INR_IZR_INZ.
    assert (K1 : 1 < INR k) by (change 1 with (INR 1); apply lt_INR; lia). assert (K2 : INR k < INR (T p)) by (apply lt_INR; lia).
    destruct (Req_EM_T _ 0) as [Z|_].
    + exfalso. apply Rmult_integral in Z. destruct Z as [Z|Z]; [|lra]. apply N2.
      assert (Q : SSR p s i / SST p i = 0) by lra. unfold Rdiv in Q. apply Rmult_integral in Q. destruct Q as [Q|Q]; [exact Q|].
      exfalso. exact (Rinv_neq_0_compat _ N1 Q).
    + match goal with |- ?x = ?y => change (@Logic.eq R x y) end. field. repeat split; try lra; assumption.
  - intros Hk N. unfold k in *. unfold STD_PCT. rewrite E_div_0_def, Hm, (Hse Hk). cbn [reals mul ofZ].
    destruct (Req_EM_T _ 0) as [Z|_]; [contradiction|]. match goal with |- ?x = ?y => change (@Logic.eq R x y) end. field. exact N.
Qed.
(** The correlations of the estimated coefficients: the covariances divided by the two standard deviations, 1 on the diagonal. *)
Theorem C85_correlations_of_coefficients : forall p (s : state reals) i j, (i < NCE reals p)%nat -> (j <= i)%nat ->
  0 < get (m_vcc s) i i -> 0 < get (m_vcc s) j j ->
  get (E_MCORR reals p s) i j * R_sqrt.sqrt (get (m_vcc s) i i) * R_sqrt.sqrt (get (m_vcc s) j j) = get (m_vcc s) i j
  /\ get (E_MCORR reals p s) j i = get (E_MCORR reals p s) i j
  /\ get (E_MCORR reals p s) i i = 1.
Proof.
  intros p s i j Hi Hj Pi Pj.
  assert (S : forall a b, (a < NCE reals p)%nat -> (b <= a)%nat -> 0 < get (m_vcc s) a a -> 0 < get (m_vcc s) b b ->
    get (E_MCORR reals p s) a b = get (m_vcc s) a b / R_sqrt.sqrt (get (m_vcc s) a a * get (m_vcc s) b b) /\ get (E_MCORR reals p s) b a = get (E_MCORR reals p s) a b).
  { intros a b Ha Hb Pa Pb. unfold E_MCORR. rewrite !get_build by lia. rewrite (Nat.max_l a b), (Nat.min_r a b), (Nat.max_r b a), (Nat.min_l b a) by lia.
    split; [|reflexivity]. rewrite E_sqrt_def. cbn [reals lt mul ofZ dvd]. unfold r_lt.
    destruct (Rlt_dec _ _) as [_|N]; [reflexivity|]. exfalso. apply N. apply Rmult_lt_0_compat; assumption. }
  destruct (S i j Hi Hj Pi Pj) as [E1 E2]. destruct (S i i Hi (Nat.le_refl i) Pi Pi) as [E3 _].
  split; [|split; [exact E2|]].
  - rewrite E1, sqrt_mult by lra. pose proof (sqrt_lt_R0 _ Pi). pose proof (sqrt_lt_R0 _ Pj). match goal with |- ?x = ?y => change (@Logic.eq R x y) end. field. lra.
  - rewrite E3, sqrt_square by lra. match goal with |- ?x = ?y => change (@Logic.eq R x y) end. field. lra.
Qed.
(** R2 is not negative for a linear equation estimated by least squares, if some values of the coefficients give the mean of
    the left hand side (for example an equation with a constant). *)
Theorem C85_rsquare_nonneg_partial : forall p X base, linear reals p X base -> full_steps reals p -> forall c s,
  length c = length (relax p) -> met p = EQ_LSQ -> NEQ p = 1%nat -> ninstr p = 0%nat -> regular reals p X (identity reals) c -> E_est reals p c = Found s ->
  forall c', same_fixed reals p c c' -> (forall t, (t < T p)%nat -> rhs p 0 c' t = mean p 0) -> 0 <= RSQUARE reals p s 0.
Proof.
  intros p X base Lin Full c s Lc Hm N1 Ni Reg E c' Sf Hc. rewrite (RSQUARE_spec p c s E 0 ltac:(lia)). destruct (Req_EM_T _ 0) as [|N]; [lra|].
  pose proof (C84_least_squares_partial reals ordered_reals p X base Lin Full c s Lc Hm Ni Reg E c' Sf) as L. apply r_lt_f in L. unfold squares in L. rewrite N1 in L. cbn [Sum] in L.
  assert (L' : SSR p s 0 <= SST p 0).
  { unfold SSR, SST, SumR. cbn [reals add ofZ] in L. rewrite !Rplus_0_l in L. eapply Rle_trans; [exact L|]. right. apply (Sum_ext reals). intros t Ht. unfold residual. rewrite (Hc t Ht). reflexivity. }
  fold (mean p 0) (SST p 0) (SSR p s 0) in * . pose proof (SST_nonneg p 0) as P. fold (mean p 0) (SST p 0) in P. assert (P' : 0 < SST p 0) by lra.
  assert (SSR p s 0 / SST p 0 <= 1); [|lra]. apply Rmult_le_reg_r with (SST p 0); [exact P'|]. unfold Rdiv. rewrite Rmult_assoc, Rinv_l by lra. lra.
Qed.
(** The standard error of a coefficient, for one linear equation estimated by least squares: the square root of the estimated variance
    of the residuals times the element of the inverse of X'X. *)
Theorem C85_standard_errors_partial : forall p X base, linear reals p X base -> full_steps reals p -> forall c s,
  length c = length (relax p) -> met p = EQ_LSQ -> NEQ p = 1%nat -> ninstr p = 0%nat -> regular reals p X (identity reals) c -> E_est reals p c = Found s ->
  (forall k, (k < length (relax p))%nat -> in_eq p k 0 = true) -> forall n, n = length (moments reals p X (identity reals)) -> (n < T p)%nat ->
  forall m, product_one reals n (moments reals p X (identity reals)) m ->
  forall a k, (a < n)%nat -> nth_error (filter (fun k => negb (eq reals (nth k (relax p) (ofZ reals 0)) (ofZ reals 0))) (seq 0 (length (relax p)))) a = Some k ->
  std_error reals p s a k = R_sqrt.sqrt (SSR p s 0 / (INR (T p) - INR n) * get m a a).
Proof.
  intros p X base Lin Full c s Lc Hm N1 Ni Reg E Hin n En Hn m Pm a k Ha Hk. pose proof (moments_length reals p X (identity reals)) as Lm. rewrite <- En in Lm.
  assert (Hka : (k < length (relax p))%nat).
  { apply nth_error_In in Hk. apply filter_In in Hk. destruct Hk as (Hk & _). apply in_seq in Hk. lia. }
  unfold std_error. rewrite Hm, E_sqrt_def, E_div_0_def. rewrite Lm in Pm, Ha. rewrite (vcc_spec reals ordered_reals p X base Lin Full c s m Lc Hm N1 Ni Reg E Pm a Ha).
  assert (Df : E_DF reals p k = INR (T p) - INR n).
  { unfold E_DF. rewrite N1. cbn [seq filter]. rewrite (Hin k Hka). cbn [reals ofZ]. rewrite minus_IZR, <- !INR_IZR_INZ. f_equal. f_equal. rewrite Lm, <- (NCE_est reals ordered_reals p Full).
    unfold NBCE, NCE. rewrite (filter_ext_in _ (fun k => lt reals (ofZ reals 0) (nth k (relax p) (ofZ reals 0)))) by (intros j Hj; apply in_seq in Hj; rewrite Hin by lia; reflexivity).
    clear. induction (relax p) as [|r l IH] using rev_ind; [reflexivity|].
    rewrite app_length. cbn [length]. rewrite Nat.add_1_r, seq_S, !filter_app, !app_length. cbn [Nat.add filter]. rewrite app_nth2, Nat.sub_diag by lia. cbn [nth].
    rewrite <- IH. f_equal; [|destruct (lt reals (ofZ reals 0) r); reflexivity]. f_equal. apply filter_ext_in. intros j Hj. apply in_seq in Hj. rewrite app_nth1 by lia. reflexivity. }
  rewrite Df. pose proof (lt_INR _ _ Hn) as Hi. destruct (Req_EM_T _ 0) as [Z|_]; [exfalso; lra|]. cbn [reals mul ofZ]. f_equal.
  pose proof (SSRES_spec' p c s E 0 ltac:(lia)) as K. fold (SSR p s 0) in K. rewrite <- K. unfold Rdiv. match goal with |- ?x = ?y => change (@Logic.eq R x y) end. ring.
Qed.
Print Assumptions C85_equation.
Print Assumptions C85_bounds.
Print Assumptions C85_correlations.
Print Assumptions C85_tests.
Print Assumptions C85_correlations_of_coefficients.
Print Assumptions C85_rsquare_nonneg_partial.
Print Assumptions C85_standard_errors_partial.

(** Refuted: R2 can be negative without a constant (y = 4, 5, 6, x = -1, 0, 1). *)
Definition slope (ys : list Z) (x : nat -> Qc) : problem exactly :=
  mkProblem exactly 3 1 [map q_ofZ ys] (fun _ c t => Qcmult (nth 0 c (q_ofZ 0)) (x t)) (fun k i => Nat.eqb k 0) [q_ofZ 1] EQ_LSQ (Qcdiv (q_ofZ 1) (q_ofZ 100000)) 10 0 [].
Definition slope_check (ys : list Z) (x : nat -> Qc) (f : problem exactly -> state exactly -> bool) : bool :=
  match E_est exactly (slope ys x) [q_ofZ 1] with Found s => f (slope ys x) s | _ => false end.
Theorem C85_rsquare_nonneg_refuted : ~ (forall A, ordered_like A -> forall p c s, E_est A p c = Found s -> lt A (RSQUARE A p s 0) (ofZ A 0) = false).
Proof.
  intros H. assert (K : slope_check [4; 5; 6]%Z xs (fun p s => lt exactly (RSQUARE exactly p s 0) (q_ofZ 0)) = true) by (vm_compute; reflexivity). unfold slope_check in K.
  destruct (E_est exactly (slope [4; 5; 6]%Z xs) [q_ofZ 1]) as [s| |] eqn:E; [|discriminate K|discriminate K].
  pose proof (H exactly ordered_exactly _ _ _ E) as N. change (ofZ exactly 0) with (q_ofZ 0) in N. rewrite N in K. discriminate K.
Qed.
(** Refuted: R2 = 1 means that the residuals are 0: R2 is 1 whatever the residuals when the left hand side is constant (y = 1, 1, 1, x = 1, 2, 5). *)
Theorem C85_rsquare_one_refuted : ~ (forall A, ordered_like A -> forall p c s, E_est A p c = Found s -> RSQUARE A p s 0 = ofZ A 1 -> SSRES A p s 0 = ofZ A 0).
Proof.
  intros H. assert (K : slope_check [1; 1; 1]%Z xi (fun p s => Qeq_bool (this (RSQUARE exactly p s 0)) 1 && negb (Qeq_bool (this (SSRES exactly p s 0)) 0)) = true) by (vm_compute; reflexivity).
  unfold slope_check in K. destruct (E_est exactly (slope [1; 1; 1]%Z xi) [q_ofZ 1]) as [s| |] eqn:E; [|discriminate K|discriminate K].
  apply andb_true_iff in K. destruct K as (K1 & K2). apply Qeq_bool_iff in K1.
  assert (R1 : RSQUARE exactly (slope [1; 1; 1]%Z xi) s 0 = ofZ exactly 1) by (apply Qc_is_canon; exact K1).
  rewrite (H exactly ordered_exactly _ _ _ E R1) in K2. discriminate K2.
Qed.
Print Assumptions C85_rsquare_nonneg_refuted.
Print Assumptions C85_rsquare_one_refuted.

(** Non-vacuity: the mean of 1 and 3 on the real numbers. *)
Definition two_values : problem reals :=
  mkProblem reals 2 1 [[1; 3]] (fun _ c t => nth 0 c 0) (fun k i => Nat.eqb k 0) [1] EQ_LSQ (/ 1000) 10 0 [].
Definition col1 (i k t : nat) : R := match k with O => 1 | _ => 0 end.
Definition base0 (i t : nat) : R := 0.
Lemma two_linear : linear reals two_values col1 base0.
Proof. split; [intros i c t _ _; unfold base0, col1; cbn; lra|]. intros i [|k] t H; [discriminate H|reflexivity]. Qed.
Lemma two_full : full_steps reals two_values.
Proof. intros r [<-|[]]. right. reflexivity. Qed.
Lemma two_est k : is_estimated reals two_values k -> k = 0%nat.
Proof. intros (H & _). cbn in H. lia. Qed.
Lemma two_est0 : is_estimated reals two_values 0.
Proof. split; [cbn; lia|]. cbn. lra. Qed.
Lemma req a b : a <> b -> eq reals a b = false.
Proof. intros N. cbn. unfold r_eq. destruct (Req_EM_T a b); [contradiction|reflexivity]. Qed.
Lemma two_independent : independent reals two_values col1.
Proof.
  intros d (k & E & N). rewrite (two_est k E) in N. exists 0%nat, 0%nat. split; [cbn; lia|]. split; [cbn; lia|].
  cbn [two_values relax length Sum nth]. change (ofZ reals 0) with 0 in * . rewrite (req 1 0) by lra. unfold col1. cbn [reals add mul ofZ] in * . lra.
Qed.
Lemma two_normal c : length c = 1%nat -> normal reals two_values col1 (identity reals) c -> c = [2].
Proof.
  intros L N. destruct c as [|u [|v c]]; try discriminate L. specialize (N 0%nat two_est0). unfold instrumented, identity, residual in N.
  cbn [two_values ninstr Nat.ltb Nat.leb NEQ T Sum rhs lhs get nth Nat.eqb col1] in N. cbn [reals F add sub mul ofZ] in N. change R in u. f_equal. lra.
Qed.
Lemma small_1 : r_lt 2 (1 / IZR (10 ^ 15)) = false /\ r_lt 2 (1 / IZR (10 ^ 25)) = false.
Proof.
  assert (K : forall q, (1 <= q)%Z -> 1 / IZR q <= 1).
  { intros q Hq. apply IZR_le in Hq. apply Rmult_le_reg_r with (IZR q); [lra|]. unfold Rdiv. rewrite Rmult_assoc, Rinv_l by lra. lra. }
  split; apply r_lt_f; [pose proof (K (10 ^ 15)%Z ltac:(lia))|pose proof (K (10 ^ 25)%Z ltac:(lia))]; lra.
Qed.
Lemma two_moments : moments reals two_values col1 (identity reals) = [[0 + (0 + 1 * (0 + 1 * 1) + 1 * (0 + 1 * 1))]].
Proof. unfold moments. cbn [two_values relax length seq filter nth]. change (ofZ reals 0) with 0 in * . rewrite (req 1 0) by lra. reflexivity. Qed.
Lemma two_regular : regular reals two_values col1 (identity reals) [1].
Proof.
  split.
  - rewrite two_moments. intros b r s Hr E i Hi Z. cbn [length] in * . assert (r = 0%nat) by lia. assert (i = 0%nat) by lia. subst r i. cbn [gel_steps seq] in E. injection E as <-. cbn [s_a get nth] in * .
    exfalso. unfold ZERO in Z. change (r_lt (Rabs (0 + (0 + 1 * (0 + 1 * 1) + 1 * (0 + 1 * 1)))) (1 / IZR (10 ^ 25)) = true) in Z.
    replace (0 + (0 + 1 * (0 + 1 * 1) + 1 * (0 + 1 * 1))) with 2 in Z by ring. rewrite Rabs_right in Z by lra. rewrite (proj2 small_1) in Z. discriminate Z.
  - intros c (L & _) N k E. rewrite (two_est k E), (two_normal c L N). change (r_lt (Rabs 2) (1 / IZR (10 ^ 15)) = false). rewrite Rabs_right by lra. apply small_1.
Qed.
Lemma two_calculable u : 0 <= u <= 1000 -> calculable reals two_values [u].
Proof.
  intros Hu i t _ _. assert (N : forall x, 0 <= x -> r_num x = true).
  { intros x Hx. unfold r_num. destruct (Rle_dec _ _) as [|N]; [reflexivity|]. exfalso. apply N. assert (0 < 10 ^ 37) by (apply pow_lt; lra). lra. }
  split; [apply N; cbn; lra|]. intros k E. rewrite (two_est k E). cbv zeta.
  replace (rhs two_values i (upd reals 0 _ [u]) t) with (u * (1 + 1 / 10000)) by reflexivity. split; [apply N; nra|].
  apply r_lt_true. apply Rlt_trans with 10000; [nra|]. apply IZR_lt. reflexivity.
Qed.
Example two_found : exists s, E_est reals two_values [1] = Found s /\ coefs s = [2] /\ SSRES reals two_values s 0 = 2 /\ DW reals two_values s 0 = 2.
Proof.
  destruct (C84_found_partial reals ordered_reals two_values col1 base0 two_linear two_full two_independent [1]) as (s & E & _); try reflexivity.
  - exists 0%nat. exact two_est0.
  - cbn. lia.
  - apply r_lt_f. cbn [two_values eps reals ofZ]. lra.
  - exact two_regular.
  - assert (K : E_get_C reals two_values [1] = [1]).
    { unfold E_get_C, estimated. cbn [two_values relax length seq map nth]. change (ofZ reals 0) with 0 in * . rewrite (req 1 0) by lra. cbn [negb andb].
      assert (Q : tiny reals 1 = false); [|rewrite Q; reflexivity]. change (r_lt (Rabs 1) (1 / IZR (10 ^ 15)) = false). rewrite Rabs_right by lra. apply r_lt_f.
      apply Rmult_le_reg_r with (IZR (10 ^ 15)); [apply IZR_lt; lia|]. unfold Rdiv. rewrite Rmult_assoc, Rinv_l by (apply not_0_IZR; lia). rewrite !Rmult_1_l. apply IZR_le. lia. }
    rewrite K. apply two_calculable. lra.
  - intros c' (L & _) N. rewrite (two_normal c' L N). split; [apply two_calculable; lra|]. unfold squares, residual. cbn [two_values NEQ T Sum lhs rhs get nth]. cbn [reals add sub mul ofZ]. lra.
  - assert (C : coefs s = [2]).
    { destruct (C84_normal_equations_partial reals ordered_reals two_values col1 base0 two_linear two_full [1] s eq_refl (or_introl eq_refl) ltac:(discriminate) two_regular E) as ((L & _) & N).
      exact (two_normal _ L N). }
    assert (S2 : SSR two_values s 0 = 2) by (unfold SSR, SumR, residual; rewrite C; cbn [two_values T Sum lhs rhs get nth]; cbn [reals add sub mul ofZ]; lra).
    destruct (C85_equation two_values [1] s E 0%nat ltac:(cbn; lia)) as (_ & H1 & _ & _ & _ & _ & H2). exists s. split; [exact E|]. split; [exact C|]. split; [rewrite H1; exact S2|].
    rewrite H2, S2 by lra. unfold SumR, residual. rewrite C. cbn [two_values T Sum lhs rhs get nth Nat.sub Nat.add]. cbn [reals add sub mul ofZ]. change (@Logic.eq R ((0 + (3 - 2 - (1 - 2)) ^ 2) / 2) 2). field.
Qed.
