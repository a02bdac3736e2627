(** The RAS method on the real numbers: one iteration, the loop, the form of the result. *)
From Coq Require Import ZArith List Bool Lia Reals Lra.
From Verif Require Import M_Base M_Exec M_Real M_Matrix M_Ras S_Matrix L_Matrix L_Estim2 L_Estim3.
Import ListNotations.
Open Scope R_scope.

Lemma sum_swap n m (f : nat -> nat -> R) : SumR n (fun i => SumR m (fun j => f i j)) = SumR m (fun j => SumR n (fun i => f i j)).
Proof. exact (Sum_swap reals reals_field n m f). Qed.
Lemma sum_sub n (f g : nat -> R) : SumR n (fun k => f k - g k) = SumR n f - SumR n g.
Proof. rewrite (sum_ext n _ (fun k => f k + (-1) * g k)) by (intros; ring). rewrite sum_plus, sum_mult. ring. Qed.
Lemma sum_at_least n (f : nat -> R) k : (forall i, (i < n)%nat -> 0 <= f i) -> (k < n)%nat -> f k <= SumR n f.
Proof.
  induction n as [|n IH]; intros P H; [lia|]. rewrite sum_S. pose proof (P n ltac:(lia)). pose proof (sum_nonneg n f ltac:(intros; apply P; lia)).
  destruct (Nat.eq_dec k n) as [->|]; [lra|]. pose proof (IH ltac:(intros; apply P; lia) ltac:(lia)). lra.
Qed.
Lemma sum_abs n (f : nat -> R) : Rabs (SumR n f) <= SumR n (fun k => Rabs (f k)).
Proof. induction n as [|n IH]; [unfold SumR; cbn; rewrite Rabs_R0; lra|]. rewrite !sum_S. eapply Rle_trans; [apply Rabs_triang|]. lra. Qed.
Lemma sum_positive_some n (f : nat -> R) : (forall i, (i < n)%nat -> 0 <= f i) -> 0 < SumR n f -> exists k, (k < n)%nat /\ 0 < f k.
Proof.
  induction n as [|n IH]; intros P H; [unfold SumR in H; cbn in H; lra|]. rewrite sum_S in H. destruct (Rlt_dec 0 (f n)) as [Q|Q]; [exists n; split; [lia|exact Q]|].
  pose proof (P n ltac:(lia)). destruct (IH ltac:(intros; apply P; lia) ltac:(lra)) as (k & Hk & K). exists k. split; [lia|exact K].
Qed.

Section Scale.
Context (n m : nat) (row col : nat -> R).
Notation fn := (nat -> nat -> R).
Definition ratio (c s : R) : R := if Req_EM_T c 0 then 1 else if Req_EM_T s 0 then 0 else c / s.
Definition csum (a : fn) j : R := SumR n (fun i => a i j).
Definition rsum (a : fn) i : R := SumR m (fun j => a i j).
Definition cf (a : fn) j : R := ratio (col j) (csum a j).
Definition rf (a : fn) i : R := ratio (row i) (rsum a i).
Definition sc (a : fn) : fn := fun i j => a i j * cf a j.
Definition sr (a : fn) : fn := fun i j => a i j * rf a i.
Definition step (a : fn) : fn := sr (sc a).
Definition same (a b : fn) : Prop := forall i j, (i < n)%nat -> (j < m)%nat -> a i j = b i j.
Definition ok (eps : R) (a : fn) : Prop :=
  (forall j, (j < m)%nat -> Rabs (cf a j - 1) <= eps) /\ (forall i, (i < n)%nat -> Rabs (rf (sc a) i - 1) <= eps).
Lemma csum_same a b j : same a b -> (j < m)%nat -> csum a j = csum b j.
Proof. intros E Hj. apply sum_ext. intros i Hi. apply E; assumption. Qed.
Lemma rsum_same a b i : same a b -> (i < n)%nat -> rsum a i = rsum b i.
Proof. intros E Hi. apply sum_ext. intros j Hj. apply E; assumption. Qed.
Lemma sc_same a b : same a b -> same (sc a) (sc b).
Proof. intros E i j Hi Hj. unfold sc, cf. rewrite (csum_same a b j E Hj), (E i j Hi Hj). reflexivity. Qed.
Lemma sr_same a b : same a b -> same (sr a) (sr b).
Proof. intros E i j Hi Hj. unfold sr, rf. rewrite (rsum_same a b i E Hi), (E i j Hi Hj). reflexivity. Qed.
Lemma step_same a b : same a b -> same (step a) (step b).
Proof. intros E. apply sr_same, sc_same, E. Qed.
Lemma ok_same eps a b : same a b -> ok eps a -> ok eps b.
Proof.
  intros E (C & R). split.
  - intros j Hj. unfold cf. rewrite <- (csum_same a b j E Hj). exact (C j Hj).
  - intros i Hi. unfold rf. rewrite <- (rsum_same (sc a) (sc b) i (sc_same a b E) Hi). exact (R i Hi).
Qed.
Lemma same_sym a b : same a b -> same b a.
Proof. intros E i j Hi Hj. symmetry. exact (E i j Hi Hj). Qed.
Lemma same_trans a b c : same a b -> same b c -> same a c.
Proof. intros E E' i j Hi Hj. rewrite (E i j Hi Hj). exact (E' i j Hi Hj). Qed.
Fixpoint steps (k : nat) (a : fn) : fn := match k with O => a | S k => steps k (step a) end.
Lemma steps_S k a : steps (S k) a = step (steps k a).
Proof. revert a. induction k as [|k IH]; intros a; [reflexivity|]. cbn [steps] in *. rewrite IH. reflexivity. Qed.
Lemma steps_same k : forall a b, same a b -> same (steps k a) (steps k b).
Proof. induction k as [|k IH]; intros a b E; [exact E|]. cbn [steps]. apply IH, step_same, E. Qed.
(** The sums after a scaling. *)
Lemma csum_sc a j : csum (sc a) j = csum a j * cf a j.
Proof. unfold csum at 1, sc. rewrite (sum_ext n (fun i => a i j * cf a j) (fun i => cf a j * a i j)) by (intros; ring). rewrite sum_mult. fold (csum a j). ring. Qed.
Lemma rsum_sr a i : rsum (sr a) i = rsum a i * rf a i.
Proof. unfold rsum at 1, sr. rewrite (sum_ext m (fun j => a i j * rf a i) (fun j => rf a i * a i j)) by (intros; ring). rewrite sum_mult. change (rf a i * rsum a i = rsum a i * rf a i). ring. Qed.
Lemma ratio_near c s eps : eps < 1 -> Rabs (ratio c s - 1) <= eps -> c <> 0 -> s <> 0 /\ ratio c s = c / s /\ s * ratio c s = c.
Proof.
  intros L. unfold ratio. destruct (Req_EM_T c 0) as [|C]; [contradiction|]. destruct (Req_EM_T s 0) as [Z|N].
  - intros H _. exfalso. replace (0 - 1) with (- (1)) in H by ring. rewrite Rabs_Ropp, Rabs_R1 in H. lra.
  - intros _ _. split; [exact N|]. split; [reflexivity|]. field. exact N.
Qed.
Lemma ratio_nonneg c s : 0 <= c -> 0 <= s -> 0 <= ratio c s.
Proof.
  intros C S. unfold ratio. destruct (Req_EM_T c 0); [lra|]. destruct (Req_EM_T s 0); [lra|]. apply Rmult_le_pos; [lra|]. apply Rlt_le, Rinv_0_lt_compat. lra.
Qed.
Definition nonneg (a : fn) : Prop := forall i j, (i < n)%nat -> (j < m)%nat -> 0 <= a i j.
Definition pos_controls : Prop := (forall i, (i < n)%nat -> 0 <= row i) /\ (forall j, (j < m)%nat -> 0 <= col j).
Lemma csum_nonneg a j : nonneg a -> (j < m)%nat -> 0 <= csum a j.
Proof. intros P Hj. apply sum_nonneg. intros i Hi. apply P; assumption. Qed.
Lemma rsum_nonneg a i : nonneg a -> (i < n)%nat -> 0 <= rsum a i.
Proof. intros P Hi. apply sum_nonneg. intros j Hj. apply P; assumption. Qed.
Lemma sc_nonneg a : pos_controls -> nonneg a -> nonneg (sc a).
Proof. intros (_ & C) P i j Hi Hj. unfold sc, cf. apply Rmult_le_pos; [exact (P i j Hi Hj)|]. apply ratio_nonneg; [exact (C j Hj)|apply csum_nonneg; assumption]. Qed.
Lemma sr_nonneg a : pos_controls -> nonneg a -> nonneg (sr a).
Proof. intros (C & _) P i j Hi Hj. unfold sr, rf. apply Rmult_le_pos; [exact (P i j Hi Hj)|]. apply ratio_nonneg; [exact (C i Hi)|apply rsum_nonneg; assumption]. Qed.
Lemma steps_nonneg a k : pos_controls -> nonneg a -> nonneg (steps k a).
Proof. intros C. revert a. induction k as [|k IH]; intros a P; [exact P|]. cbn [steps]. apply IH, sr_nonneg, sc_nonneg; assumption. Qed.
(** The last iteration. *)
Lemma rows_exact a eps i : eps < 1 -> ok eps a -> (i < n)%nat -> row i <> 0 -> rsum (step a) i = row i.
Proof. intros L (_ & R) Hi N. unfold step. rewrite rsum_sr. destruct (ratio_near _ _ eps L (R i Hi) N) as (_ & _ & E). exact E. Qed.
Lemma cols_exact a eps j : eps < 1 -> ok eps a -> (j < m)%nat -> col j <> 0 -> csum (sc a) j = col j.
Proof. intros L (C & _) Hj N. rewrite csum_sc. destruct (ratio_near _ _ eps L (C j Hj) N) as (_ & _ & E). exact E. Qed.
Lemma cols_gap a eps j : eps < 1 -> ok eps a -> (j < m)%nat -> col j <> 0 -> Rabs (csum (step a) j - col j) <= eps * SumR n (fun i => Rabs (sc a i j)).
Proof.
  intros L O Hj N. rewrite <- (cols_exact a eps j L O Hj N). unfold csum at 1 2. rewrite <- sum_sub. eapply Rle_trans; [apply sum_abs|].
  rewrite <- sum_mult. apply sum_le. intros i Hi. unfold step, sr. replace (sc a i j * rf (sc a) i - sc a i j) with ((rf (sc a) i - 1) * sc a i j) by ring.
  rewrite Rabs_mult. apply Rmult_le_compat_r; [apply Rabs_pos|]. destruct O as (_ & O). exact (O i Hi).
Qed.
(** The form of the result. *)
Lemma steps_form a k : exists r c : nat -> R, (forall i j, steps k a i j = r i * a i j * c j)
  /\ (forall i, (i < n)%nat -> row i = 0 -> r i = 1) /\ (forall j, (j < m)%nat -> col j = 0 -> c j = 1).
Proof.
  induction k as [|k (r & c & E & R1 & C1)].
  - exists (fun _ => 1), (fun _ => 1). split; [intros; cbn; ring|split; reflexivity].
  - exists (fun i => r i * rf (sc (steps k a)) i), (fun j => c j * cf (steps k a) j). repeat split.
    + intros i j. rewrite steps_S. unfold step. unfold sr at 1, sc at 1. rewrite E. ring.
    + intros i Hi Z. rewrite (R1 i Hi Z). unfold rf, ratio. rewrite Z. destruct (Req_EM_T 0 0); [ring|contradiction].
    + intros j Hj Z. rewrite (C1 j Hj Z). unfold cf, ratio. rewrite Z. destruct (Req_EM_T 0 0); [ring|contradiction].
Qed.
Lemma zero_ratio c s : c <> 0 -> s = 0 -> ratio c s = 0.
Proof. intros N Z. unfold ratio. destruct (Req_EM_T c 0); [contradiction|]. destruct (Req_EM_T s 0); [reflexivity|contradiction]. Qed.
Lemma near_zero x eps : eps < 1 -> Rabs (x - 1) <= eps -> 0 < x.
Proof. intros L H. pose proof (Rle_abs (- (x - 1))) as K. rewrite Rabs_Ropp in K. lra. Qed.
Lemma sum_0 q (f : nat -> R) : (forall k, (k < q)%nat -> f k = 0) -> SumR q f = 0.
Proof. induction q as [|q IH]; intros H; [reflexivity|]. rewrite sum_S, (IH ltac:(intros; apply H; lia)), H by lia. ring. Qed.
Lemma final_form a eps k : eps < 1 -> ok eps (steps k a) -> exists r c : nat -> R,
  (forall i j, steps (S k) a i j = r i * a i j * c j)
  /\ (forall i, (i < n)%nat -> r i <> 0) /\ (forall j, (j < m)%nat -> c j <> 0)
  /\ (forall i, (i < n)%nat -> row i = 0 -> r i = 1) /\ (forall j, (j < m)%nat -> col j = 0 -> c j = 1).
Proof.
  intros L O. destruct (steps_form a k) as (r & c & E & R1 & C1). destruct O as (OC & OR).
  exists (fun i => r i * rf (sc (steps k a)) i), (fun j => c j * cf (steps k a) j).
  assert (Er : forall i, (i < n)%nat -> row i = 0 -> rf (sc (steps k a)) i = 1) by (intros i Hi Z; unfold rf, ratio; rewrite Z; destruct (Req_EM_T 0 0); [reflexivity|contradiction]).
  assert (Ec : forall j, (j < m)%nat -> col j = 0 -> cf (steps k a) j = 1) by (intros j Hj Z; unfold cf, ratio; rewrite Z; destruct (Req_EM_T 0 0); [reflexivity|contradiction]).
  split; [|split; [|split; [|split]]].
  - intros i j. rewrite steps_S. unfold step. unfold sr at 1, sc at 1. rewrite E. ring.
  - intros i Hi. destruct (Req_dec (row i) 0) as [Z|N]; [rewrite (R1 i Hi Z), (Er i Hi Z); lra|].
    assert (r i <> 0). { intros Z. pose proof (near_zero _ _ L (OR i Hi)) as P. unfold rf in P. rewrite zero_ratio in P; [lra|exact N|].
      apply sum_0. intros j Hj. unfold sc. rewrite E, Z. ring. }
    pose proof (near_zero _ _ L (OR i Hi)). apply Rmult_integral_contrapositive. split; [assumption|lra].
  - intros j Hj. destruct (Req_dec (col j) 0) as [Z|N]; [rewrite (C1 j Hj Z), (Ec j Hj Z); lra|].
    assert (c j <> 0). { intros Z. pose proof (near_zero _ _ L (OC j Hj)) as P. unfold cf in P. rewrite zero_ratio in P; [lra|exact N|].
      apply sum_0. intros i Hi. rewrite E, Z. ring. }
    pose proof (near_zero _ _ L (OC j Hj)). apply Rmult_integral_contrapositive. split; [assumption|lra].
  - intros i Hi Z. rewrite (R1 i Hi Z), (Er i Hi Z). ring.
  - intros j Hj Z. rewrite (C1 j Hj Z), (Ec j Hj Z). ring.
Qed.
Lemma positive_form a eps k : eps < 1 -> pos_controls -> nonneg a -> ok eps (steps k a) -> exists r c : nat -> R,
  (forall i j, steps (S k) a i j = r i * a i j * c j) /\ (forall i, (i < n)%nat -> 0 < r i) /\ (forall j, (j < m)%nat -> 0 < c j).
Proof.
  intros L C Pa O. assert (Pk : forall q, exists r c : nat -> R, (forall i j, steps q a i j = r i * a i j * c j) /\ (forall i, (i < n)%nat -> 0 <= r i) /\ (forall j, (j < m)%nat -> 0 <= c j)
    /\ (forall i, (i < n)%nat -> row i = 0 -> r i = 1) /\ (forall j, (j < m)%nat -> col j = 0 -> c j = 1)).
  { induction q as [|q (r & c & E & R0 & C0 & R1 & C1)].
    - exists (fun _ => 1), (fun _ => 1). split; [intros; cbn; ring|]. split; [intros; lra|]. split; [intros; lra|]. split; reflexivity.
    - pose proof (steps_nonneg a q C Pa) as Nq. exists (fun i => r i * rf (sc (steps q a)) i), (fun j => c j * cf (steps q a) j). split; [|split; [|split; [|split]]].
      + intros i j. rewrite steps_S. unfold step. unfold sr at 1, sc at 1. rewrite E. ring.
      + intros i Hi. apply Rmult_le_pos; [exact (R0 i Hi)|]. unfold rf. apply ratio_nonneg; [apply C; exact Hi|]. apply rsum_nonneg; [apply sc_nonneg; assumption|exact Hi].
      + intros j Hj. apply Rmult_le_pos; [exact (C0 j Hj)|]. unfold cf. apply ratio_nonneg; [apply C; exact Hj|]. apply csum_nonneg; assumption.
      + intros i Hi Z. rewrite (R1 i Hi Z). unfold rf, ratio. rewrite Z. destruct (Req_EM_T 0 0); [ring|contradiction].
      + intros j Hj Z. rewrite (C1 j Hj Z). unfold cf, ratio. rewrite Z. destruct (Req_EM_T 0 0); [ring|contradiction]. }
  destruct (Pk k) as (r & c & E & R0 & C0 & R1 & C1). destruct O as (OC & OR).
  exists (fun i => r i * rf (sc (steps k a)) i), (fun j => c j * cf (steps k a) j). split; [|split].
  - intros i j. rewrite steps_S. unfold step. unfold sr at 1, sc at 1. rewrite E. ring.
  - intros i Hi. pose proof (near_zero _ _ L (OR i Hi)) as P. apply Rmult_lt_0_compat; [|exact P]. destruct (Rle_lt_or_eq_dec _ _ (R0 i Hi)) as [Q|Z]; [exact Q|exfalso].
    destruct (Req_dec (row i) 0) as [Zr|N]; [pose proof (R1 i Hi Zr); lra|]. unfold rf in P. rewrite zero_ratio in P; [lra|exact N|]. apply sum_0. intros j Hj. unfold sc. rewrite E, <- Z. ring.
  - intros j Hj. pose proof (near_zero _ _ L (OC j Hj)) as P. apply Rmult_lt_0_compat; [|exact P]. destruct (Rle_lt_or_eq_dec _ _ (C0 j Hj)) as [Q|Z]; [exact Q|exfalso].
    destruct (Req_dec (col j) 0) as [Zr|N]; [pose proof (C1 j Hj Zr); lra|]. unfold cf in P. rewrite zero_ratio in P; [lra|exact N|]. apply sum_0. intros i Hi. rewrite E, <- Z. ring.
Qed.
(** Sums that are already met. *)
Lemma met_factor c s : s = c -> ratio c s = 1.
Proof. intros ->. unfold ratio. destruct (Req_EM_T c 0); [reflexivity|]. field. assumption. Qed.
Lemma met_step a : (forall i, (i < n)%nat -> row i <> 0 -> rsum a i = row i) -> (forall j, (j < m)%nat -> col j <> 0 -> csum a j = col j) -> same (step a) a /\ forall eps, 0 <= eps -> ok eps a.
Proof.
  intros R C. assert (C1 : forall j, (j < m)%nat -> cf a j = 1).
  { intros j Hj. unfold cf. destruct (Req_dec (col j) 0) as [Z|N]; [unfold ratio; destruct (Req_EM_T (col j) 0); [reflexivity|contradiction]|]. apply met_factor. apply C; assumption. }
  assert (S1 : same (sc a) a) by (intros i j Hi Hj; unfold sc; rewrite C1 by exact Hj; ring).
  assert (R1 : forall i, (i < n)%nat -> rf (sc a) i = 1).
  { intros i Hi. unfold rf. rewrite (rsum_same _ _ i S1 Hi). destruct (Req_dec (row i) 0) as [Z|N]; [unfold ratio; destruct (Req_EM_T (row i) 0); [reflexivity|contradiction]|]. apply met_factor. apply R; assumption. }
  split.
  - intros i j Hi Hj. unfold step, sr. rewrite R1 by exact Hi. rewrite (S1 i j Hi Hj). ring.
  - intros eps P. split; intros k Hk; [rewrite C1 by exact Hk|rewrite R1 by exact Hk]; rewrite Rminus_diag_eq by reflexivity; rewrite Rabs_R0; exact P.
Qed.
End Scale.

(** * The code *)

Section Code.
Context (n m : nat) (row col : list R).
Notation ro := (fun i => nth i row 0).
Notation co := (fun j => nth j col 0).
Definition gt (a : mat reals) : nat -> nat -> R := fun i j => get a i j.
Lemma r_eq_true x y : r_eq x y = true <-> x = y.
Proof. unfold r_eq. destruct (Req_EM_T x y); split; intros; congruence. Qed.
Lemma factor_ratio c s : c <> 0 -> @Logic.eq R (factor reals c s) (ratio c s).
Proof.
  intros N. unfold factor, ratio. change (lt reals) with r_lt. change (ofZ reals 0) with 0. change (dvd reals) with Rdiv. change (abs reals) with Rabs. unfold r_lt.
  destruct (Req_EM_T c 0); [contradiction|]. destruct (Rlt_dec 0 (Rabs s)) as [P|P], (Req_EM_T s 0) as [Z|Z]; try reflexivity.
  - rewrite Z, Rabs_R0 in P. lra.
  - exfalso. apply P. apply Rabs_pos_lt. exact Z.
Qed.
Lemma col_factor_at a j : nth j col 0 <> 0 -> @Logic.eq R (col_factor reals n col a j) (cf n co (gt a) j).
Proof. intros N. unfold col_factor. rewrite (total_Sum reals). exact (factor_ratio _ _ N). Qed.
Lemma row_factor_at a i : nth i row 0 <> 0 -> @Logic.eq R (row_factor reals m row a i) (rf m ro (gt a) i).
Proof. intros N. unfold row_factor. rewrite (total_Sum reals). exact (factor_ratio _ _ N). Qed.
Lemma ratio_0 c s : c = 0 -> ratio c s = 1.
Proof. intros Z. unfold ratio. destruct (Req_EM_T c 0); [reflexivity|contradiction]. Qed.
Lemma scale_cols_at a : same n m (gt (scale_cols reals n m col a)) (sc n co (gt a)).
Proof.
  intros i j Hi Hj. unfold gt at 1, scale_cols. rewrite (get_build reals) by assumption. change (eq reals) with r_eq. change (ofZ reals 0) with 0. change (@nth (F reals)) with (@nth R). unfold sc.
  destruct (r_eq (nth j col 0) 0) eqn:E.
  - apply r_eq_true in E. unfold cf. rewrite ratio_0 by exact E. change (gt a i j = gt a i j * 1). ring.
  - assert (N : nth j col 0 <> 0) by (intros Z; apply r_eq_true in Z; congruence). change (mul reals) with Rmult. rewrite (col_factor_at a j N). reflexivity.
Qed.
Lemma scale_rows_at a : same n m (gt (scale_rows reals n m row a)) (sr m ro (gt a)).
Proof.
  intros i j Hi Hj. unfold gt at 1, scale_rows. rewrite (get_build reals) by assumption. change (eq reals) with r_eq. change (ofZ reals 0) with 0. change (@nth (F reals)) with (@nth R). unfold sr.
  destruct (r_eq (nth i row 0) 0) eqn:E.
  - apply r_eq_true in E. unfold rf. rewrite ratio_0 by exact E. change (gt a i j = gt a i j * 1). ring.
  - assert (N : nth i row 0 <> 0) by (intros Z; apply r_eq_true in Z; congruence). change (mul reals) with Rmult. rewrite (row_factor_at a i N). reflexivity.
Qed.
Lemma worst_S c f q : worst reals c f (S q) = (if r_eq (c q) 0 then worst reals c f q else let d := Rabs (f q - 1) in if r_lt (worst reals c f q) d then d else worst reals c f q).
Proof. unfold worst. rewrite seq_S, fold_left_app. reflexivity. Qed.
Lemma worst_le (c f : nat -> R) eps q : (worst reals c f q : R) <= eps <-> 0 <= eps /\ forall k, (k < q)%nat -> c k <> 0 -> Rabs (f k - 1) <= eps.
Proof.
  induction q as [|q IH].
  - split; [intros H; split; [exact H|intros; lia]|intros (H & _); exact H].
  - rewrite worst_S. destruct (r_eq (c q) 0) eqn:E.
    + apply r_eq_true in E. rewrite IH. split; intros (P & H); (split; [exact P|]); intros k Hk N; [destruct (Nat.eq_dec k q) as [->|]; [contradiction|apply H; [lia|exact N]]|apply H; [lia|exact N]].
    + assert (N : c q <> 0) by (intros Z; apply r_eq_true in Z; congruence). cbv zeta. unfold r_lt. destruct (Rlt_dec (worst reals c f q) (Rabs (f q - 1))) as [Q|Q].
      * split.
        -- intros H. assert (W : (worst reals c f q : R) <= eps) by (eapply Rle_trans; [apply Rlt_le; exact Q|exact H]). apply IH in W. destruct W as (P & W). split; [exact P|]. intros k Hk Nk.
           destruct (Nat.eq_dec k q) as [->|]; [exact H|apply W; [lia|exact Nk]].
        -- intros (P & H). apply H; [lia|exact N].
      * apply Rnot_lt_le in Q. split.
        -- intros H. pose proof (proj1 IH H) as (P & W). split; [exact P|]. intros k Hk Nk. destruct (Nat.eq_dec k q) as [->|]; [eapply Rle_trans; [exact Q|exact H]|apply W; [lia|exact Nk]].
        -- intros (P & H). apply IH. split; [exact P|]. intros k Hk Nk. apply H; [lia|exact Nk].
Qed.
Lemma step_code a eps : same n m (gt (fst (ras_step reals n m row col a))) (step n m ro co (gt a))
  /\ (r_lt eps (snd (ras_step reals n m row col a)) = false <-> 0 <= eps /\ ok n m ro co eps (gt a)).
Proof.
  unfold ras_step. cbn [fst snd]. split.
  - eapply same_trans; [apply scale_rows_at|]. apply sr_same. apply scale_cols_at.
  - set (b := scale_cols reals n m col a). change (lt reals) with r_lt. rewrite r_lt_f.
    set (cd := worst reals _ _ m). set (rd := worst reals _ _ n).
    assert (M : ((if r_lt rd cd then cd else rd) : R) <= eps <-> (cd : R) <= eps /\ (rd : R) <= eps).
    { unfold r_lt. destruct (Rlt_dec rd cd) as [Q|Q]; [|apply Rnot_lt_le in Q]; split; [intros H; split; [exact H|eapply Rle_trans; [apply Rlt_le; exact Q|exact H]]|intros (H & _); exact H
      |intros H; split; [eapply Rle_trans; [exact Q|exact H]|exact H]|intros (_ & H); exact H]. }
    rewrite M. unfold cd, rd. rewrite !worst_le. change (ofZ reals 0) with 0. unfold ok. split.
    + intros ((P & C) & (_ & R)). split; [exact P|]. split.
      * intros j Hj. destruct (Req_dec (nth j col 0) 0) as [Z|N].
        -- unfold cf. rewrite ratio_0 by exact Z. rewrite Rminus_diag_eq by reflexivity. rewrite Rabs_R0. exact P.
        -- rewrite <- (col_factor_at a j N). exact (C j Hj N).
      * intros i Hi. destruct (Req_dec (nth i row 0) 0) as [Z|N].
        -- unfold rf. rewrite ratio_0 by exact Z. rewrite Rminus_diag_eq by reflexivity. rewrite Rabs_R0. exact P.
        -- pose proof (R i Hi N) as K. rewrite (row_factor_at b i N) in K. unfold rf in *. rewrite (rsum_same n m (gt b) (sc n co (gt a)) i (scale_cols_at a) Hi) in K. exact K.
    + intros (P & C & R). split; (split; [exact P|]).
      * intros j Hj N. rewrite (col_factor_at a j N). exact (C j Hj).
      * intros i Hi N. rewrite (row_factor_at b i N). unfold rf. rewrite (rsum_same n m (gt b) (sc n co (gt a)) i (scale_cols_at a) Hi). exact (R i Hi).
Qed.
Notation stp := (steps n m ro co).
Lemma loop_some more eps : forall a a', ras_loop reals more n m row col eps a = Some a' -> 0 <= eps /\ exists k, (k <= more)%nat /\ (forall q, (q < k)%nat -> ~ ok n m ro co eps (stp q (gt a)))
  /\ ok n m ro co eps (stp k (gt a)) /\ same n m (gt a') (stp (S k) (gt a)).
Proof.
  induction more as [|more IH]; intros a a' E; cbn [ras_loop] in E; destruct (ras_step reals n m row col a) as (b, d) eqn:Es; destruct (step_code a eps) as (Sb & Dd); rewrite Es in Sb, Dd; cbn [fst snd] in Sb, Dd;
    change (lt reals) with r_lt in E; destruct (r_lt eps d) eqn:L.
  - discriminate.
  - injection E as <-. pose proof (proj1 Dd eq_refl) as (P & O). split; [exact P|]. exists 0%nat. split; [lia|]. split; [intros; lia|]. split; [exact O|exact Sb].
  - destruct (IH b a' E) as (P & k & Hk & Nk & O & S). split; [exact P|]. exists (Datatypes.S k). split; [lia|].
    assert (Sq : forall q, same n m (stp q (gt b)) (stp (Datatypes.S q) (gt a))) by (intros q; cbn [steps]; apply steps_same; exact Sb). split; [|split].
    + intros q Hq O'. destruct q as [|q].
      * assert (K : true = false) by (apply Dd; split; [exact P|exact O']). discriminate K.
      * apply (Nk q ltac:(lia)). apply (ok_same n m ro co eps (stp (Datatypes.S q) (gt a))); [apply same_sym; apply Sq|exact O'].
    + apply (ok_same n m ro co eps (stp k (gt b))); [apply Sq|exact O].
    + eapply same_trans; [exact S|]. apply Sq.
  - injection E as <-. pose proof (proj1 Dd eq_refl) as (P & O). split; [exact P|]. exists 0%nat. split; [lia|]. split; [intros; lia|]. split; [exact O|exact Sb].
Qed.
Lemma loop_none more eps : forall a, 0 <= eps -> ras_loop reals more n m row col eps a = None -> forall k, (k <= more)%nat -> ~ ok n m ro co eps (stp k (gt a)).
Proof.
  induction more as [|more IH]; intros a P E k Hk O; cbn [ras_loop] in E; destruct (ras_step reals n m row col a) as (b, d) eqn:Es; destruct (step_code a eps) as (Sb & Dd); rewrite Es in Sb, Dd; cbn [fst snd] in Sb, Dd;
    change (lt reals) with r_lt in E; destruct (r_lt eps d) eqn:L; try discriminate.
  - assert (k = 0)%nat as -> by lia. assert (K : true = false) by (apply Dd; split; assumption). discriminate K.
  - destruct k as [|k]; [assert (K : true = false) by (apply Dd; split; assumption); discriminate K|].
    apply (IH b P E k ltac:(lia)). apply (ok_same n m ro co eps (stp (S k) (gt a))); [|exact O]. cbn [steps]. apply steps_same. apply same_sym. exact Sb.
Qed.
Lemma calc_some a maxit eps a' : RasCalc reals n m a row col maxit eps = Some a' -> 0 <= eps /\ Rabs (SumR m co - SumR n ro) <= eps
  /\ exists k, (k <= Z.to_nat maxit)%nat /\ (forall q, (q < k)%nat -> ~ ok n m ro co eps (stp q (gt a))) /\ ok n m ro co eps (stp k (gt a)) /\ same n m (gt a') (stp (S k) (gt a)).
Proof.
  unfold RasCalc. rewrite !(total_Sum reals). change (lt reals) with r_lt. change (abs reals) with Rabs. change (sub reals) with Rminus.
  change (ofZ reals 0) with 0. destruct (r_lt eps _) eqn:L; [discriminate|]. apply r_lt_f in L. intros E. destruct (loop_some _ _ _ _ E) as (P & K). split; [exact P|]. split; [exact L|exact K].
Qed.
Lemma calc_loop a maxit eps : Rabs (SumR m co - SumR n ro) <= eps -> RasCalc reals n m a row col maxit eps = ras_loop reals (Z.to_nat maxit) n m row col eps a.
Proof.
  intros L. unfold RasCalc. rewrite !(total_Sum reals). destruct (lt reals eps _) eqn:K; [|reflexivity]. exfalso. change (r_lt eps (Rabs (SumR m co - SumR n ro)) = true) in K. apply r_lt_true in K. lra.
Qed.
End Code.
