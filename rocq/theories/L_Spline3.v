(** The cubic spline of a flow: the computed values are bounded, and add up to the value of the period. *)
From Coq Require Import ZArith Ascii String List Bool Lia QArith Qcanon Lqa.
From Verif Require Import M_Base M_Time M_Names M_Lex M_Compile M_Bytes M_Exec M_Exact M_Kdb M_Vars M_Freq S_Time S_Vars S_Freq S_Spline
  L_Time L_Names L_Kdb L_Vars L_Vars2 L_Vars5 L_Freq L_Freq2 L_Freq3 L_Freq4 L_Freq5 L_Freq6 L_Spline L_Spline2.
Import ListNotations.
Open Scope Z_scope.
Local Arguments Z.add : simpl never.
Local Arguments Z.sub : simpl never.
Local Arguments Z.mul : simpl never.

Definition bd (x : Qc) (b : Q) : Prop := (- b <= this x /\ this x <= b)%Q.
Lemma bd_num x b : bd x b -> (b <= inject_Z (10 ^ 37))%Q -> q_num x = true.
Proof.
  intros [H _] Hb. apply num_iff. unfold Qcle. rewrite qz_this. eapply Qle_trans; [|exact H].
  change (inject_Z (- 10 ^ 37)) with (- inject_Z (10 ^ 37))%Q. set (c := inject_Z (10 ^ 37)) in *. clearbody c. lra.
Qed.
Lemma bd_add x y a b : bd x a -> bd y b -> bd (x + y) (a + b).
Proof. intros [H1 H2] [H3 H4]. split; rewrite t_add; lra. Qed.
Lemma bd_weaken x a b : bd x a -> (a <= b)%Q -> bd x b.
Proof. intros [H1 H2] H. split; lra. Qed.
Lemma bd_divZ x b m : (0 <= b)%Q -> 0 < m -> bd x b -> bd (x / q_ofZ m) b.
Proof.
  intros B0 Hm [H1 H2]. pose proof (t_div x (q_ofZ m) (qz_ne m ltac:(lia))) as D. rewrite t_Z in D.
  assert (M1 : (1 <= inject_Z m)%Q) by (unfold Qle, inject_Z; cbn; lia). set (c := inject_Z m) in *. clearbody c. split; nra.
Qed.

Section Bounds.
Context (y : Z -> Qc) (q w m : Z -> Qc) (N : Z) (b : Q).
Hypothesis B0 : (0 <= b)%Q.
Hypothesis Q0 : q 0 = 0%Qc.
Hypothesis W0 : w 0 = 0%Qc.
Hypothesis Rq : forall k, 1 <= k < N -> q k = next_q A (q (k - 1)).
Hypothesis Rw : forall k, 1 <= k < N -> w k = next_u A (dd y k) (q (k - 1)) (w (k - 1)).
Hypothesis MN : m N = 0%Qc.
Hypothesis Rm : forall k, 0 <= k < N -> m k = (q k * m (k + 1)%Z + w k)%Qc.
Hypothesis HN : 0 <= N.
Hypothesis By : forall k, 0 <= k <= N -> bd (y k) b.
Lemma dd_bound k : 1 <= k < N -> bd (dd y k) (4 * b).
Proof.
  intros Hk. destruct (By k ltac:(lia)), (By (k + 1) ltac:(lia)), (By (k - 1) ltac:(lia)).
  split; unfold dd; rewrite t_add, t_sub, t_mul; change (this (1 + 1)%Qc) with 2%Q; lra.
Qed.
Lemma w_bound k : 0 <= k < N -> bd (w k) (9 * b).
Proof.
  intros Hk. assert (G : forall n, Z.of_nat n < N -> bd (w (Z.of_nat n)) (9 * b)).
  { induction n as [|n IH]; intros Hn.
    - change (Z.of_nat 0) with 0. rewrite W0. split; change (this (Q2Qc 0)) with 0%Q; lra.
    - rewrite Rw by lia. replace (Z.of_nat (S n) - 1) with (Z.of_nat n) by lia. specialize (IH ltac:(lia)).
      pose proof (q_bound y q w m N Q0 Rq Rw Rm (Z.of_nat n) ltac:(lia)) as Bq.
      pose proof (pivot_bound _ Bq) as P. pose proof (dd_bound (Z.of_nat (S n)) ltac:(lia)) as D.
      set (d := dd y (Z.of_nat (S n))) in *. set (w0 := w (Z.of_nat n)) in *. set (q0 := q (Z.of_nat n)) in *.
      unfold next_u. change (one_half A) with oh. cbn [sub dvd mul ofZ A].
      pose proof (t_div (q_ofZ 3 * d - oh * w0)%Qc _ (pivot_nz _ Bq)) as E. rewrite t_sub, !t_mul in E.
      change (this (q_ofZ 3)) with 3%Q in E. change (this oh) with (1 # 2)%Q in E.
      change (bd ((q_ofZ 3 * d - oh * w0) / pivot A q0)%Qc (9 * b)).
      set (z := ((q_ofZ 3 * d - oh * w0) / pivot A q0)%Qc) in *.
      destruct IH as [I1 I2], D as [D1 D2], P as [P1 P2]. set (zz := this z) in *. set (pp := this (pivot A q0)) in *. set (ww := this w0) in *.
      set (ddd := this d) in *. unfold bd. fold zz. clearbody zz pp ww ddd. split; nra. }
  specialize (G (Z.to_nat k)). rewrite Z2Nat.id in G by lia. apply G. lia.
Qed.
Lemma m_bound k : 0 <= k <= N -> bd (m k) (14 * b).
Proof.
  intros Hk. assert (G : forall n, Z.of_nat n <= N -> bd (m (N - Z.of_nat n)) (14 * b)).
  { induction n as [|n IH]; intros Hn.
    - replace (N - Z.of_nat 0) with N by lia. rewrite MN. split; change (this (Q2Qc 0)) with 0%Q; lra.
    - rewrite Rm by lia. replace (N - Z.of_nat (S n) + 1) with (N - Z.of_nat n) by lia. specialize (IH ltac:(lia)).
      pose proof (q_bound y q w m N Q0 Rq Rw Rm (N - Z.of_nat (S n)) ltac:(lia)) as [Q1 Q2].
      destruct (w_bound (N - Z.of_nat (S n)) ltac:(lia)) as [W1 W2]. destruct IH as [I1 I2].
      unfold bd. rewrite t_add, t_mul. set (a := this (q (N - Z.of_nat (S n)))) in *. set (c := this (m (N - Z.of_nat n))) in *.
      set (e := this (w (N - Z.of_nat (S n)))) in *. clearbody a c e. split; nra. }
  specialize (G (Z.to_nat (N - k))). rewrite Z2Nat.id in G by lia. replace (N - (N - k)) with k in G by lia. apply G. lia.
Qed.
End Bounds.

Lemma cs_val_bound v y2 f k sh b : 0 < sh -> (0 <= b)%Q -> let lo := f + k / sh in
  bd (at_ v lo) b -> bd (at_ v (lo + 1)) b -> bd (at_ y2 lo) (14 * b) -> bd (at_ y2 (lo + 1)) (14 * b) -> bd (cs_val A v y2 f k sh) (6 * b).
Proof.
  intros Hs B0 lo [Y1 Y2] [Y3 Y4] [M1 M2] [M3 M4]. unfold cs_val. cbv zeta. fold lo. cbn [M_Exec.add sub mul dvd ofZ A].
  set (x := (q_ofZ k / q_ofZ sh + q_ofZ f)%Qc).
  assert (Ex : (this x * inject_Z sh == inject_Z k + inject_Z f * inject_Z sh)%Q).
  { unfold x. rewrite t_add. pose proof (t_div (q_ofZ k) (q_ofZ sh) (qz_ne sh ltac:(lia))) as D. rewrite !t_Z in *. rewrite Qmult_plus_distr_l, D. reflexivity. }
  assert (Ps : (0 < inject_Z sh)%Q) by (unfold Qlt, inject_Z; cbn; lia).
  pose proof (Z.div_mod k sh ltac:(lia)) as DM. pose proof (Z.mod_pos_bound k sh Hs) as MB.
  assert (R1 : (inject_Z lo <= this x)%Q).
  { assert (inject_Z lo * inject_Z sh <= inject_Z k + inject_Z f * inject_Z sh)%Q.
    { unfold lo. rewrite <- !inject_Z_mult, <- inject_Z_plus. rewrite <- Zle_Qle. lia. }
    nra. }
  assert (R2 : (this x <= inject_Z lo + 1)%Q).
  { assert (inject_Z k + inject_Z f * inject_Z sh <= (inject_Z lo + 1) * inject_Z sh)%Q.
    { unfold lo. change 1%Q with (inject_Z 1). rewrite <- !inject_Z_plus, <- !inject_Z_mult, <- inject_Z_plus. rewrite <- Zle_Qle. lia. }
    nra. }
  set (a := (q_ofZ (lo + 1) - x)%Qc). set (c := (x - q_ofZ lo)%Qc).
  assert (Ea : (0 <= this a <= 1)%Q). { unfold a. rewrite t_sub, t_Z, inject_Z_plus. change (inject_Z 1) with 1%Q. lra. }
  assert (Ec : (this a + this c == 1)%Q). { unfold a, c. rewrite !t_sub, !t_Z, inject_Z_plus. change (inject_Z 1) with 1%Q. lra. }
  assert (Cb : forall z, (0 <= this z <= 1)%Q -> (- (1) <= this (z * z * z - z)%Qc <= 0)%Q).
  { intros z Hz. rewrite t_sub, !t_mul. set (zz := this z) in *. clearbody zz. split; nra. }
  pose proof (Cb a Ea) as Ca. pose proof (Cb c ltac:(lra)) as Cc. clear Cb.
  set (ca := (a * a * a - a)%Qc) in *. set (cc := (c * c * c - c)%Qc) in *.
  pose proof (t_div (ca * at_ y2 lo + cc * at_ y2 (lo + 1)%Z)%Qc (q_ofZ 6) (qz_ne 6 ltac:(lia))) as D6.
  rewrite t_add, !t_mul in D6. change (this (q_ofZ 6)) with 6%Q in D6.
  assert (G : bd (a * at_ v lo + c * at_ v (lo + 1)%Z + (ca * at_ y2 lo + cc * at_ y2 (lo + 1)%Z) / q_ofZ 6)%Qc (6 * b)).
  { set (s := ((ca * at_ y2 lo + cc * at_ y2 (lo + 1)%Z) / q_ofZ 6)%Qc) in *.
    unfold bd. rewrite !t_add, !t_mul. set (A1 := this a) in *. set (C1 := this c) in *. set (V1 := this (at_ v lo)) in *. set (V2 := this (at_ v (lo + 1))) in *.
    set (U1 := this (at_ y2 lo)) in *. set (U2 := this (at_ y2 (lo + 1))) in *. set (S1 := this s) in *. set (K1 := this ca) in *. set (K2 := this cc) in *.
    clearbody A1 C1 V1 V2 U1 U2 S1 K1 K2. clear - B0 Y1 Y2 Y3 Y4 M1 M2 M3 M4 Ea Ec Ca Cc D6.
    assert (P1 : (- (14 * b) <= K1 * U1 <= 14 * b)%Q) by (split; nra).
    assert (P2 : (- (14 * b) <= K2 * U2 <= 14 * b)%Q) by (split; nra).
    assert (P3 : (- b <= A1 * V1 + C1 * V2 <= b)%Q) by (assert (C1 == 1 - A1)%Q by lra; split; nra).
    split; lra. }
  exact G.
Qed.

(** * Sums *)
Fixpoint zrange (j : Z) (n : nat) : list Z := match n with O => [] | S n' => j :: zrange (j + 1) n' end.
Fixpoint psum (n : nat) (j : Z) (h : Z -> Qc) : Qc := match n with O => 0%Qc | S n' => (h j + psum n' (j + 1)%Z h)%Qc end.
Lemma fold_psum h : forall n j s, fold_left Qcplus (map h (zrange j n)) s = (s + psum n j h)%Qc.
Proof. induction n as [|n IH]; intros j s; cbn [zrange map fold_left psum]; [ring|rewrite IH; ring]. Qed.
Lemma psum_shift h d : forall n j, psum n j (fun i => h i + d)%Qc = (psum n j h + q_ofZ (Z.of_nat n) * d)%Qc.
Proof.
  induction n as [|n IH]; intros j; cbn [psum]; [change (q_ofZ (Z.of_nat 0)) with 0%Qc; ring|]. rewrite IH.
  replace (Z.of_nat (S n)) with (Z.of_nat n + 1) by lia. rewrite qz_add, qz_1. ring.
Qed.
Lemma psum_ext h h' : forall n j, (forall i, j <= i < j + Z.of_nat n -> h i = h' i) -> psum n j h = psum n j h'.
Proof. induction n as [|n IH]; intros j H; cbn [psum]; auto. rewrite H, IH by (intros; try apply H; lia). reflexivity. Qed.
Lemma run_sum_spec h K : (0 <= K)%Q -> forall n j s S0, (forall i, j <= i < j + Z.of_nat n -> bd (h i) K) -> bd s S0 ->
  (0 <= S0)%Q -> (S0 + inject_Z (Z.of_nat n) * K <= inject_Z (10 ^ 37))%Q ->
  run_sum A n j h s = (s + psum n j h)%Qc /\ bd (s + psum n j h)%Qc (S0 + inject_Z (Z.of_nat n) * K).
Proof.
  intros HK. induction n as [|n IH]; intros j s S0 Hh Hs S00 Hb; cbn [run_sum psum].
  - split; [symmetry; apply Qcplus_0_r|]. rewrite Qcplus_0_r. eapply bd_weaken; eauto. change (inject_Z (Z.of_nat 0)) with 0%Q. lra.
  - replace (Z.of_nat (S n)) with (1 + Z.of_nat n) in * by lia. rewrite inject_Z_plus in *. change (inject_Z 1) with 1%Q in *.
    assert (Nn : (0 <= inject_Z (Z.of_nat n))%Q) by (unfold Qle, inject_Z; cbn; lia). set (nn := inject_Z (Z.of_nat n)) in *.
    pose proof (Hh j ltac:(lia)) as Bj. set (c := inject_Z (10 ^ 37)) in *.
    assert (Kc : (K <= c)%Q) by nra. assert (Sc : (S0 <= c)%Q) by nra.
    change (num A (h j)) with (q_num (h j)). change (num A s) with (q_num s). rewrite (bd_num _ _ Bj Kc), (bd_num _ _ Hs Sc). cbn [andb].
    change (M_Exec.add A s (h j)) with (s + h j)%Qc.
    destruct (IH (j + 1) (s + h j)%Qc (S0 + K)%Q) as [E1 E2].
    + intros i Hi. apply Hh. lia.
    + apply bd_add; auto.
    + lra.
    + lra.
    + replace (s + (h j + psum n (j + 1)%Z h))%Qc with (s + h j + psum n (j + 1)%Z h)%Qc by ring. split; auto.
      eapply bd_weaken; eauto. lra.
Qed.
(** The values of a period add up to its value. *)
Lemma corrected_sum x sh h b : 0 < sh <= 1000 -> (0 <= b)%Q -> (b <= inject_Z (10 ^ 30))%Q -> bd x b ->
  (forall i, 0 <= i < sh -> bd (h i) (6 * b)) ->
  total A (map (corrected A x sh h) (zrange 0 (Z.to_nat sh))) = (x * q_ofZ sh)%Qc.
Proof.
  intros Hs B0 B1 Bx Bh.
  assert (S1 : (0 <= inject_Z sh <= 1000)%Q) by (split; unfold Qle, inject_Z; cbn; lia).
  assert (Big : (inject_Z (10 ^ 30) * 10000000 == inject_Z (10 ^ 37))%Q) by reflexivity.
  destruct (run_sum_spec h (6 * b)%Q ltac:(lra) (Z.to_nat sh) 0 0%Qc 0%Q) as [E1 E2].
  - intros i Hi. apply Bh. lia.
  - split; discriminate.
  - lra.
  - rewrite Z2Nat.id by lia. set (c := inject_Z (10 ^ 37)) in *. set (c' := inject_Z (10 ^ 30)) in *. set (s := inject_Z sh) in *. clearbody c c' s. nra.
  - rewrite Z2Nat.id in E2 by lia.
    assert (Nm : q_num (0 + psum (Z.to_nat sh) 0 h)%Qc = true).
    { eapply bd_num; [exact E2|]. set (c := inject_Z (10 ^ 37)) in *. set (c' := inject_Z (10 ^ 30)) in *. set (s := inject_Z sh) in *. clearbody c c' s. nra. }
    set (d := ((x * q_ofZ sh - (0 + psum (Z.to_nat sh) 0 h)) / q_ofZ sh)%Qc).
    assert (Ec : forall j, corrected A x sh h j = (h j + d)%Qc).
    { intros j. unfold corrected. cbv zeta. change (ofZ A 0) with 0%Qc. rewrite E1. change (num A ?z) with (q_num z). rewrite Nm. reflexivity. }
    assert (Bd : bd d (7 * b)).
    { unfold d. pose proof (t_div (x * q_ofZ sh - (0 + psum (Z.to_nat sh) 0 h))%Qc (q_ofZ sh) (qz_ne sh ltac:(lia))) as D.
      rewrite t_sub, t_mul, !t_Z in D. set (z := ((x * q_ofZ sh - (0 + psum (Z.to_nat sh) 0 h)) / q_ofZ sh)%Qc) in *.
      destruct E2 as [E3 E4], Bx as [X1 X2]. unfold bd. set (zz := this z) in *. set (pp := this (0 + psum (Z.to_nat sh) 0 h)%Qc) in *.
      set (xx := this x) in *. assert (Ps : (1 <= inject_Z sh)%Q) by (unfold Qle, inject_Z; cbn; lia). set (s := inject_Z sh) in *.
      clearbody zz pp xx s. clear - D E3 E4 X1 X2 Ps B0. split; nra. }
    unfold total.
    assert (Fa : forallb (num A) (map (corrected A x sh h) (zrange 0 (Z.to_nat sh))) = true).
    { apply forallb_forall. intros z Hz. apply in_map_iff in Hz. destruct Hz as (j & <- & Hj).
      assert (Hj' : 0 <= j < sh).
      { assert (G : forall n i, In j (zrange i n) -> i <= j < i + Z.of_nat n).
        { induction n as [|n IH]; intros i Hi; cbn in Hi; [tauto|]. destruct Hi as [->|Hi]; [lia|]. apply IH in Hi. lia. }
        apply G in Hj. lia. }
      rewrite Ec. change (q_num (h j + d)%Qc = true). eapply bd_num; [apply bd_add; [apply Bh; auto|exact Bd]|].
      set (c := inject_Z (10 ^ 37)) in *. set (c' := inject_Z (10 ^ 30)) in *. clearbody c c'. lra. }
    rewrite Fa. rewrite (map_ext _ (fun j => (h j + d)%Qc) Ec). change (M_Exec.add A) with Qcplus. change (ofZ A 0) with 0%Qc.
    transitivity (0 + psum (Z.to_nat sh) 0 (fun j => h j + d))%Qc; [apply fold_psum|].
    rewrite psum_shift, Z2Nat.id by lia. unfold d. qc. field. apply qz_ne. lia.
Qed.
