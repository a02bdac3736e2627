(** The RAS method converges; the matrix it looks for is unique. *)
From Coq Require Import ZArith List Bool Lia Reals Lra.
From Verif Require Import M_Base M_Exec M_Real M_Matrix M_Ras S_Matrix L_Matrix L_Estim2 L_Estim3 L_Ras.
Import ListNotations.
Open Scope R_scope.

Lemma ln_le_minus u : 0 < u -> ln u <= u - 1.
Proof.
  intros P. destruct (Req_dec (ln u) 0) as [Z|N].
  - rewrite Z. pose proof (exp_ln u P) as E. rewrite Z, exp_0 in E. lra.
  - pose proof (exp_ineq1 (ln u) N) as K. rewrite exp_ln in K by exact P. lra.
Qed.
(** The gain for a factor c = 1/u. *)
Lemma gain u : 0 < u -> (R_sqrt.sqrt u - 1) * (R_sqrt.sqrt u - 1) <= u - 1 - ln u.
Proof.
  intros P. pose proof (sqrt_lt_R0 u P) as Q. pose proof (sqrt_sqrt u (Rlt_le _ _ P)) as E. set (w := R_sqrt.sqrt u) in *.
  assert (L : ln u = 2 * ln w) by (rewrite <- E, ln_mult by exact Q; ring). rewrite L. pose proof (ln_le_minus w Q). nra.
Qed.
Definition level (eps : R) : R := R_sqrt.sqrt (/ (1 + eps)).
Lemma level_lt eps : 0 < eps -> 0 < level eps < 1.
Proof.
  intros P. unfold level. assert (Q : 0 < / (1 + eps)) by (apply Rinv_0_lt_compat; lra). split; [apply sqrt_lt_R0; exact Q|].
  assert (K : R_sqrt.sqrt (/ (1 + eps)) < R_sqrt.sqrt 1); [|rewrite sqrt_1 in K; exact K]. apply sqrt_lt_1_alt. split; [lra|].
  assert (/ (1 + eps) < / 1) by (apply Rinv_lt_contravar; lra). rewrite Rinv_1 in H. exact H.
Qed.
Lemma gain_far c eps : 0 < eps -> 0 < c -> eps < Rabs (c - 1) -> (1 - level eps) * (1 - level eps) <= / c - 1 + ln c.
Proof.
  intros Pe Pc H. pose proof (level_lt eps Pe) as (V0 & V1). set (v := level eps) in *.
  assert (Pu : 0 < / c) by (apply Rinv_0_lt_compat; exact Pc). pose proof (gain (/ c) Pu) as G. rewrite ln_Rinv in G by exact Pc.
  assert (E : v * v = / (1 + eps)) by (apply sqrt_sqrt; apply Rlt_le, Rinv_0_lt_compat; lra).
  set (w := R_sqrt.sqrt (/ c)) in *. assert (Ew : w * w = / c) by (apply sqrt_sqrt; lra). assert (Pw : 0 < w) by (apply sqrt_lt_R0; exact Pu).
  assert (D : (1 - v) * (1 - v) <= (w - 1) * (w - 1)); [|lra].
  unfold Rabs in H. destruct (Rcase_abs (c - 1)) as [N|N].
  - (* c < 1 - eps *)
    assert (K : 1 < w * v).
    { assert (K : 1 < w * v * (w * v)). { replace (w * v * (w * v)) with (w * w * (v * v)) by ring. rewrite Ew, E. rewrite <- Rinv_mult. rewrite <- Rinv_1 at 1. apply Rinv_lt_contravar; nra. }
      destruct (Rle_lt_dec (w * v) 1) as [Q|Q]; [|exact Q]. assert (0 < w * v) by nra. nra. }
    assert (1 - v <= w - 1) by nra. nra.
  - assert (K : w <= v). { destruct (Rle_lt_dec w v) as [Q|Q]; [exact Q|exfalso]. assert (/ c < / (1 + eps)) by (apply Rinv_lt_contravar; nra). nra. }
    nra.
Qed.
Lemma gain_pos c : 0 < c -> 0 <= / c - 1 + ln c.
Proof.
  intros Pc. assert (Pu : 0 < / c) by (apply Rinv_0_lt_compat; exact Pc). pose proof (gain (/ c) Pu) as G. rewrite ln_Rinv in G by exact Pc.
  pose proof (Rle_0_sqr (R_sqrt.sqrt (/ c) - 1)) as Q. unfold Rsqr in Q. lra.
Qed.
(** Scaling sums s to controls c of the same total. *)
Definition total_gain q (c s : nat -> R) : R := SumR q (fun k => c k * ln (c k / s k)).
Lemma total_gain_eq q (c s : nat -> R) : (forall k, (k < q)%nat -> 0 < c k /\ 0 < s k) -> SumR q c = SumR q s ->
  total_gain q c s = SumR q (fun k => c k * (/ (c k / s k) - 1 + ln (c k / s k))).
Proof.
  intros P E. unfold total_gain. rewrite (sum_ext q (fun k => c k * (/ (c k / s k) - 1 + ln (c k / s k))) (fun k => (s k - c k) + c k * ln (c k / s k))).
  - rewrite sum_plus, sum_sub, E. ring.
  - intros k Hk. destruct (P k Hk). field. lra.
Qed.
Lemma div_pos x y : 0 < x -> 0 < y -> 0 < x / y.
Proof. intros. apply Rmult_lt_0_compat; [assumption|apply Rinv_0_lt_compat; assumption]. Qed.
Lemma total_gain_pos q (c s : nat -> R) : (forall k, (k < q)%nat -> 0 < c k /\ 0 < s k) -> SumR q c = SumR q s -> 0 <= total_gain q c s.
Proof.
  intros P E. rewrite total_gain_eq by assumption. apply sum_nonneg. intros k Hk. destruct (P k Hk) as (Pc & Ps). apply Rmult_le_pos; [lra|]. apply gain_pos. apply div_pos; assumption.
Qed.
Lemma total_gain_far q (c s : nat -> R) eps mu k : 0 < eps -> (forall k, (k < q)%nat -> 0 < c k /\ 0 < s k) -> SumR q c = SumR q s ->
  (forall k, (k < q)%nat -> mu <= c k) -> (k < q)%nat -> eps < Rabs (c k / s k - 1) -> mu * ((1 - level eps) * (1 - level eps)) <= total_gain q c s.
Proof.
  intros Pe P E M Hk H. rewrite total_gain_eq by assumption. destruct (P k Hk) as (Pc & Ps).
  eapply Rle_trans; [|apply (sum_at_least q (fun k => c k * (/ (c k / s k) - 1 + ln (c k / s k))) k); [|exact Hk]].
  - pose proof (gain_far (c k / s k) eps Pe (div_pos _ _ Pc Ps) H) as G. pose proof (M k Hk). assert (0 <= (1 - level eps) * (1 - level eps)) by exact (Rle_0_sqr _). nra.
  - intros i Hi. destruct (P i Hi) as (Pci & Psi). apply Rmult_le_pos; [lra|]. apply gain_pos. apply div_pos; assumption.
Qed.

Section Converge.
Context (n m : nat) (row col : nat -> R) (X : nat -> nat -> R).
Notation fn := (nat -> nat -> R).
Context (Pr : forall i, (i < n)%nat -> 0 < row i) (Pc : forall j, (j < m)%nat -> 0 < col j).
Context (PX : forall i j, (i < n)%nat -> (j < m)%nat -> 0 <= X i j).
Context (Xr : forall i, (i < n)%nat -> SumR m (fun j => X i j) = row i) (Xc : forall j, (j < m)%nat -> SumR n (fun i => X i j) = col j).
Notation T := (SumR n row).
Lemma total_cols : SumR m col = T.
Proof.
  rewrite (sum_ext m col (fun j => SumR n (fun i => X i j))) by (intros j Hj; symmetry; apply Xc; exact Hj).
  rewrite (sum_ext n row (fun i => SumR m (fun j => X i j))) by (intros i Hi; symmetry; apply Xr; exact Hi). symmetry. apply sum_swap.
Qed.
(** Positive where X is. *)
Definition good (a : fn) : Prop := forall i j, (i < n)%nat -> (j < m)%nat -> 0 <= a i j /\ (0 < X i j -> 0 < a i j).
Lemma good_csum a j : good a -> (j < m)%nat -> 0 < csum n a j.
Proof.
  intros G Hj. pose proof (Pc j Hj) as P. rewrite <- (Xc j Hj) in P. destruct (sum_positive_some n (fun i => X i j)) as (i & Hi & K); [intros i Hi; apply PX; assumption|exact P|].
  eapply Rlt_le_trans; [apply (G i j Hi Hj); exact K|]. apply (sum_at_least n (fun i => a i j) i); [|exact Hi]. intros q Hq. apply (G q j Hq Hj).
Qed.
Lemma good_rsum a i : good a -> (i < n)%nat -> 0 < rsum m a i.
Proof.
  intros G Hi. pose proof (Pr i Hi) as P. rewrite <- (Xr i Hi) in P. destruct (sum_positive_some m (fun j => X i j)) as (j & Hj & K); [intros j Hj; apply PX; assumption|exact P|].
  eapply Rlt_le_trans; [apply (G i j Hi Hj); exact K|]. apply (sum_at_least m (fun j => a i j) j); [|exact Hj]. intros q Hq. apply (G i q Hi Hq).
Qed.
Lemma ratio_pos c s : 0 < c -> 0 < s -> ratio c s = c / s.
Proof. intros Hc Hs. unfold ratio. destruct (Req_EM_T c 0); [lra|]. destruct (Req_EM_T s 0); [lra|reflexivity]. Qed.
Lemma good_cf a j : good a -> (j < m)%nat -> cf n col a j = col j / csum n a j /\ 0 < cf n col a j.
Proof. intros G Hj. pose proof (good_csum a j G Hj). pose proof (Pc j Hj). unfold cf. rewrite ratio_pos by assumption. split; [reflexivity|apply div_pos; assumption]. Qed.
Lemma good_rf a i : good a -> (i < n)%nat -> rf m row a i = row i / rsum m a i /\ 0 < rf m row a i.
Proof. intros G Hi. pose proof (good_rsum a i G Hi). pose proof (Pr i Hi). unfold rf. rewrite ratio_pos by assumption. split; [reflexivity|apply div_pos; assumption]. Qed.
Lemma good_sc a : good a -> good (sc n col a).
Proof. intros G i j Hi Hj. destruct (good_cf a j G Hj) as (_ & P). destruct (G i j Hi Hj) as (G0 & G1). unfold sc. split; [apply Rmult_le_pos; lra|]. intros K. apply Rmult_lt_0_compat; [apply G1; exact K|exact P]. Qed.
Lemma good_sr a : good a -> good (sr m row a).
Proof. intros G i j Hi Hj. destruct (good_rf a i G Hi) as (_ & P). destruct (G i j Hi Hj) as (G0 & G1). unfold sr. split; [apply Rmult_le_pos; lra|]. intros K. apply Rmult_lt_0_compat; [apply G1; exact K|exact P]. Qed.
Definition pot (a : fn) : R := SumR n (fun i => SumR m (fun j => X i j * ln (a i j))).
Lemma pot_sc a : good a -> pot (sc n col a) = pot a + total_gain m col (csum n a).
Proof.
  intros G. unfold pot, total_gain.
  rewrite (sum_ext n _ (fun i => SumR m (fun j => X i j * ln (a i j)) + SumR m (fun j => X i j * ln (col j / csum n a j)))).
  - rewrite sum_plus. f_equal. rewrite sum_swap. apply sum_ext. intros j Hj. rewrite (sum_ext n _ (fun i => ln (col j / csum n a j) * X i j)) by (intros; ring). rewrite sum_mult, Xc by exact Hj. ring.
  - intros i Hi. rewrite <- sum_plus. apply sum_ext. intros j Hj. unfold sc. destruct (good_cf a j G Hj) as (E & P). destruct (Rle_lt_or_eq_dec _ _ (PX i j Hi Hj)) as [K|K].
    + destruct (G i j Hi Hj) as (_ & G1). rewrite ln_mult by (try exact P; apply G1; exact K). rewrite E. ring.
    + rewrite <- K. ring.
Qed.
Lemma pot_sr a : good a -> pot (sr m row a) = pot a + total_gain n row (rsum m a).
Proof.
  intros G. unfold pot, total_gain. rewrite <- sum_plus. apply sum_ext. intros i Hi.
  rewrite (sum_ext m _ (fun j => X i j * ln (a i j) + ln (row i / rsum m a i) * X i j)).
  - rewrite sum_plus, sum_mult, Xr by exact Hi. ring.
  - intros j Hj. unfold sr. destruct (good_rf a i G Hi) as (E & P). destruct (Rle_lt_or_eq_dec _ _ (PX i j Hi Hj)) as [K|K].
    + destruct (G i j Hi Hj) as (_ & G1). rewrite ln_mult by (try exact P; apply G1; exact K). rewrite E. ring.
    + rewrite <- K. ring.
Qed.
Definition full (a : fn) : R := SumR n (fun i => rsum m a i).
Lemma full_cols a : full a = SumR m (fun j => csum n a j).
Proof. unfold full, rsum, csum. apply sum_swap. Qed.
Lemma full_sc a : good a -> full (sc n col a) = T.
Proof.
  intros G. rewrite full_cols. rewrite (sum_ext m _ col); [apply total_cols|]. intros j Hj. rewrite csum_sc. destruct (good_cf a j G Hj) as (E & _). rewrite E. field. pose proof (good_csum a j G Hj). lra.
Qed.
Lemma full_sr a : good a -> full (sr m row a) = T.
Proof.
  intros G. unfold full. apply sum_ext. intros i Hi. rewrite rsum_sr. destruct (good_rf a i G Hi) as (E & _). rewrite E. field. pose proof (good_rsum a i G Hi). lra.
Qed.
Lemma pot_bound a : good a -> full a = T -> pot a <= T * T.
Proof.
  intros G E. unfold pot.
  replace (SumR n row * SumR n row) with (SumR n (fun i => SumR n row * row i)) by (rewrite sum_mult; reflexivity).
  apply sum_le. intros i Hi. replace (SumR n row * row i) with (SumR n row * SumR m (fun j => X i j)) by (rewrite (Xr i Hi); reflexivity). rewrite <- sum_mult. apply sum_le. intros j Hj. rewrite (Rmult_comm (SumR n row)). destruct (Rle_lt_or_eq_dec _ _ (PX i j Hi Hj)) as [K|K].
  - apply Rmult_le_compat_l; [lra|]. destruct (G i j Hi Hj) as (_ & G1). pose proof (ln_le_minus (a i j) (G1 K)) as L.
    assert (a i j <= rsum m a i) by (apply (sum_at_least m (fun j => a i j) j); [|exact Hj]; intros q Hq; apply (G i q Hi Hq)).
    assert (rsum m a i <= full a) by (apply (sum_at_least n (fun i => rsum m a i) i); [|exact Hi]; intros q Hq; apply Rlt_le, good_rsum; assumption).
    lra.
  - rewrite <- K. lra.
Qed.
Lemma good_step a : good a -> good (step n m row col a).
Proof. intros G. apply good_sr, good_sc, G. Qed.
Lemma good_steps k : forall a, good a -> good (steps n m row col k a).
Proof. induction k as [|k IH]; intros a G; [exact G|]. cbn [steps]. apply IH, good_step, G. Qed.
Lemma far_of_not_ok (q : nat) (f : nat -> R) eps : ~ (forall k, (k < q)%nat -> Rabs (f k - 1) <= eps) -> exists k, (k < q)%nat /\ eps < Rabs (f k - 1).
Proof.
  induction q as [|q IH]; intros H; [exfalso; apply H; intros; lia|]. destruct (Rle_lt_dec (Rabs (f q - 1)) eps) as [L|L]; [|exists q; split; [lia|exact L]].
  destruct IH as (k & Hk & K); [|exists k; split; [lia|exact K]]. intros Q. apply H. intros k Hk. destruct (Nat.eq_dec k q) as [->|]; [exact L|apply Q; lia].
Qed.
Lemma all_dec (q : nat) (f : nat -> R) eps : {forall k, (k < q)%nat -> Rabs (f k - 1) <= eps} + {~ forall k, (k < q)%nat -> Rabs (f k - 1) <= eps}.
Proof.
  induction q as [|q [IH|IH]]; [left; intros; lia| |right; intros H; apply IH; intros; apply H; lia].
  destruct (Rle_lt_dec (Rabs (f q - 1)) eps) as [L|L]; [left|right; intros H; pose proof (H q ltac:(lia)); lra]. intros k Hk. destruct (Nat.eq_dec k q) as [->|]; [exact L|apply IH; lia].
Qed.
Lemma not_ok_cases a eps : ~ ok n m row col eps a -> ~ (forall j, (j < m)%nat -> Rabs (cf n col a j - 1) <= eps) \/ ~ (forall i, (i < n)%nat -> Rabs (rf m row (sc n col a) i - 1) <= eps).
Proof. intros H. destruct (all_dec m (cf n col a) eps) as [C|C]; [|left; exact C]. right. intros Q. apply H. split; assumption. Qed.
Lemma step_gain a eps mu : 0 < eps -> good a -> full a = T -> 0 < mu -> (forall i, (i < n)%nat -> mu <= row i) -> (forall j, (j < m)%nat -> mu <= col j) -> ~ ok n m row col eps a ->
  pot a + mu * ((1 - level eps) * (1 - level eps)) <= pot (step n m row col a).
Proof.
  intros Pe G E Pm Mr Mc H. unfold step. pose proof (good_sc a G) as G'. rewrite pot_sr by exact G'. rewrite pot_sc by exact G.
  assert (Q1 : forall k, (k < m)%nat -> 0 < col k /\ 0 < csum n a k) by (intros k Hk; split; [apply Pc; exact Hk|apply good_csum; assumption]).
  assert (Q2 : forall k, (k < n)%nat -> 0 < row k /\ 0 < rsum m (sc n col a) k) by (intros k Hk; split; [apply Pr; exact Hk|apply good_rsum; assumption]).
  assert (S1 : SumR m col = SumR m (csum n a)) by (rewrite total_cols, <- E; apply full_cols).
  assert (S2 : SumR n row = SumR n (rsum m (sc n col a))) by (symmetry; apply full_sc; exact G).
  pose proof (total_gain_pos m col (csum n a) Q1 S1) as P1. pose proof (total_gain_pos n row _ Q2 S2) as P2.
  destruct (not_ok_cases a eps H) as [K|K].
  - destruct (far_of_not_ok m (cf n col a) eps K) as (j & Hj & F). destruct (good_cf a j G Hj) as (Ec & _). rewrite Ec in F.
    pose proof (total_gain_far m col (csum n a) eps mu j Pe Q1 S1 Mc Hj F). lra.
  - destruct (far_of_not_ok n (rf m row (sc n col a)) eps K) as (i & Hi & F). destruct (good_rf (sc n col a) i G' Hi) as (Er & _). rewrite Er in F.
    pose proof (total_gain_far n row (rsum m (sc n col a)) eps mu i Pe Q2 S2 Mr Hi F). lra.
Qed.
Lemma least_control : exists mu, 0 < mu /\ (forall i, (i < n)%nat -> mu <= row i) /\ (forall j, (j < m)%nat -> mu <= col j).
Proof.
  assert (L : forall q (f : nat -> R), (forall k, (k < q)%nat -> 0 < f k) -> exists mu, 0 < mu /\ forall k, (k < q)%nat -> mu <= f k).
  { induction q as [|q IH]; intros f P; [exists 1; split; [lra|intros; lia]|]. destruct (IH f ltac:(intros; apply P; lia)) as (mu & Pm & M). exists (Rmin mu (f q)).
    split; [apply Rmin_glb_lt; [exact Pm|apply P; lia]|]. intros k Hk. destruct (Nat.eq_dec k q) as [->|]; [apply Rmin_r|]. eapply Rle_trans; [apply Rmin_l|]. apply M. lia. }
  destruct (L n row Pr) as (a & Pa & Ma). destruct (L m col Pc) as (b & Pb & Mb). exists (Rmin a b). split; [apply Rmin_glb_lt; assumption|]. split; intros k Hk.
  - eapply Rle_trans; [apply Rmin_l|]. apply Ma. exact Hk.
  - eapply Rle_trans; [apply Rmin_r|]. apply Mb. exact Hk.
Qed.
Lemma some_ok a eps : 0 < eps -> good a -> exists K, exists k, (k <= K)%nat /\ ok n m row col eps (steps n m row col k a).
Proof.
  intros Pe G. destruct least_control as (mu & Pm & Mr & Mc). set (d := mu * ((1 - level eps) * (1 - level eps))).
  assert (Pd : 0 < d). { pose proof (level_lt eps Pe). unfold d. apply Rmult_lt_0_compat; [exact Pm|]. apply Rmult_lt_0_compat; lra. }
  set (a1 := step n m row col a). assert (G1 : good a1) by (apply good_step; exact G). assert (F1 : full a1 = T) by (apply full_sr, good_sc, G).
  assert (D : forall K, (exists k, (k <= K)%nat /\ ok n m row col eps (steps n m row col k a1)) \/ pot a1 + INR (S K) * d <= pot (steps n m row col (S K) a1)).
  { assert (One : forall k, ok n m row col eps (steps n m row col k a1) \/ pot (steps n m row col k a1) + d <= pot (steps n m row col (S k) a1)).
    { intros k. destruct (all_dec m (cf n col (steps n m row col k a1)) eps) as [C|C], (all_dec n (rf m row (sc n col (steps n m row col k a1))) eps) as [R|R]; try (left; split; assumption); right; rewrite steps_S;
      (apply step_gain; [exact Pe|apply good_steps; exact G1| |exact Pm|exact Mr|exact Mc|intros (C' & R'); contradiction]);
      (destruct k as [|k]; [exact F1|rewrite steps_S; apply full_sr, good_sc, good_steps, G1]). }
    induction K as [|K IH].
    - destruct (One 0%nat) as [O|O]; [left; exists 0%nat; split; [lia|exact O]|right]. change (INR 1) with 1. rewrite Rmult_1_l. exact O.
    - destruct IH as [(k & Hk & O)|IH]; [left; exists k; split; [lia|exact O]|]. destruct (One (S K)) as [O|O]; [left; exists (S K); split; [lia|exact O]|right]. rewrite (S_INR (S K)). lra. }
  destruct (archimed ((T * T - pot a1) / d)) as (Ar & _). set (z := up ((T * T - pot a1) / d)) in *.
  destruct (D (Z.to_nat z)) as [(k & Hk & O)|H].
  - exists (S (Z.to_nat z)), (S k). split; [lia|exact O].
  - exfalso. assert (B : pot (steps n m row col (S (Z.to_nat z)) a1) <= T * T) by (apply pot_bound; [apply good_steps; exact G1|rewrite steps_S; apply full_sr, good_sc, good_steps, G1]).
    assert (Z1 : IZR z <= INR (S (Z.to_nat z))). { rewrite INR_IZR_INZ. apply IZR_le. lia. }
    assert (Q : (T * T - pot a1) / d * d < INR (S (Z.to_nat z)) * d) by (apply Rmult_lt_compat_r; lra). unfold Rdiv in Q. rewrite Rmult_assoc, Rinv_l in Q by lra. lra.
Qed.
End Converge.

(** Two matrices of this form with the same sums are equal. *)
Lemma biproportional_unique n m (a x y : nat -> nat -> R) r c r' c' :
  (forall i j, (i < n)%nat -> (j < m)%nat -> 0 <= a i j) ->
  (forall i, (i < n)%nat -> 0 < r i /\ 0 < r' i) -> (forall j, (j < m)%nat -> 0 < c j /\ 0 < c' j) ->
  (forall i j, (i < n)%nat -> (j < m)%nat -> x i j = r i * a i j * c j) -> (forall i j, (i < n)%nat -> (j < m)%nat -> y i j = r' i * a i j * c' j) ->
  (forall i, (i < n)%nat -> rsum m x i = rsum m y i) -> (forall j, (j < m)%nat -> csum n x j = csum n y j) ->
  forall i j, (i < n)%nat -> (j < m)%nat -> x i j = y i j.
Proof.
  intros Pa Pr Pc Ex Ey Er Ec. set (u := fun i => ln (r i) - ln (r' i)). set (v := fun j => ln (c j) - ln (c' j)).
  assert (Z : SumR n (fun i => SumR m (fun j => (x i j - y i j) * (u i + v j))) = 0).
  { rewrite (sum_ext n _ (fun i => u i * SumR m (fun j => x i j - y i j) + SumR m (fun j => v j * (x i j - y i j)))).
    - rewrite sum_plus, sum_swap. rewrite (sum_0 n), (sum_0 m); [ring| |].
      + intros j Hj. rewrite sum_mult, sum_sub. change (v j * (csum n x j - csum n y j) = 0). rewrite Ec by exact Hj. ring.
      + intros i Hi. rewrite sum_sub. change (u i * (rsum m x i - rsum m y i) = 0). rewrite Er by exact Hi. ring.
    - intros i Hi. rewrite <- sum_mult, <- sum_plus. apply sum_ext. intros; ring. }
  assert (P : forall i j, (i < n)%nat -> (j < m)%nat -> 0 <= (x i j - y i j) * (u i + v j) /\ ((x i j - y i j) * (u i + v j) = 0 -> x i j = y i j)).
  { intros i j Hi Hj. destruct (Rle_lt_or_eq_dec _ _ (Pa i j Hi Hj)) as [K|K].
    - destruct (Pr i Hi) as (R1 & R2). destruct (Pc j Hj) as (C1 & C2). assert (X1 : 0 < x i j) by (rewrite Ex by assumption; apply Rmult_lt_0_compat; [apply Rmult_lt_0_compat|]; assumption).
      assert (Y1 : 0 < y i j) by (rewrite Ey by assumption; apply Rmult_lt_0_compat; [apply Rmult_lt_0_compat|]; assumption).
      assert (L : u i + v j = ln (x i j) - ln (y i j)). { rewrite Ex, Ey by assumption. rewrite !ln_mult by (try assumption; apply Rmult_lt_0_compat; assumption). unfold u, v. ring. }
      rewrite L. destruct (Rtotal_order (x i j) (y i j)) as [Q|[Q|Q]].
      + pose proof (ln_increasing _ _ X1 Q). split; [nra|]. intros E. exfalso. nra.
      + rewrite Q. split; [lra|reflexivity].
      + pose proof (ln_increasing _ _ Y1 Q). split; [nra|]. intros E. exfalso. nra.
    - rewrite Ex, Ey, <- K by assumption. split; [lra|intros _; ring]. }
  assert (S0 : forall q (f : nat -> R), (forall k, (k < q)%nat -> 0 <= f k) -> SumR q f = 0 -> forall k, (k < q)%nat -> f k = 0).
  { intros q f N E k Hk. pose proof (sum_at_least q f k N Hk). pose proof (N k Hk). lra. }
  intros i j Hi Hj. apply (P i j Hi Hj).
  pose proof (S0 n _ (fun i Hi => sum_nonneg m (fun j => (x i j - y i j) * (u i + v j)) (fun j Hj => proj1 (P i j Hi Hj))) Z i Hi) as Zi. cbn beta in Zi.
  exact (S0 m _ (fun j Hj => proj1 (P i j Hi Hj)) Zi j Hj).
Qed.
