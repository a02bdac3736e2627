(** The elimination on the matrix of the filter: no exchange of lines, no number close to 0; the solution is the trend. *)
From Coq Require Import ZArith List Bool Lia Reals Lra Field ZifyBool Psatz.
From Verif Require Import M_Base M_Exec M_Real M_Matrix M_Hodrick S_Matrix S_Hodrick L_Matrix L_Estim2 L_Estim3 L_Hodrick.
Import ListNotations.
Open Scope R_scope.

Definition eps : R := 1 / IZR (10 ^ 25).
Lemma eps_pos : 0 < eps.
Proof. unfold eps. apply Rdiv_lt_0_compat; [lra|apply IZR_lt; lia]. Qed.
Lemma eps_small : eps < / 2.
Proof. unfold eps. unfold Rdiv. rewrite Rmult_1_l. apply Rinv_lt_contravar; [|apply IZR_lt; lia]. assert (0 < IZR (10 ^ 25)) by (apply IZR_lt; lia). nra. Qed.
Lemma ZERO_def x : ZERO reals x = true <-> Rabs x < eps.
Proof. exact (r_lt_true (Rabs x) eps). Qed.
Lemma ZERO_false x : ZERO reals x = false <-> eps <= Rabs x.
Proof. exact (r_lt_f (Rabs x) eps). Qed.
Lemma ZERO_big (x : R) : 1 <= x -> ZERO reals x = false.
Proof. intros P. apply ZERO_false. rewrite Rabs_right by lra. pose proof eps_small. lra. Qed.

(** * Elements *)

Lemma H_far n l i j : (i + 2 < j \/ j + 2 < i)%nat -> H n l i j = 0.
Proof. intros Q. unfold H. rewrite d_over. unfold d, I. cases; cbn [andb]; ring. Qed.
Lemma H_2 n l r : (r + 2 < n)%nat -> H n l r (r + 2) = l /\ H n l (r + 2) r = l.
Proof. intros Q. unfold H. rewrite !d_over. unfold d, I. split; cases; cbn [andb]; ring. Qed.
Definition on (b : bool) : R := if b then 1 else 0.
Lemma H_1 n l r : (r + 2 < n)%nat -> H n l (r + 1) (r + 2) = - (2 * l) - 2 * l * on (Nat.ltb (r + 3) n) /\ H n l (r + 2) (r + 1) = - (2 * l) - 2 * l * on (Nat.ltb (r + 3) n).
Proof. intros Q. unfold H. rewrite !d_over. unfold d, I, on. split; cases; cbn [andb]; ring. Qed.
Lemma H_0 n l r : (r + 2 < n)%nat -> H n l (r + 2) (r + 2) = 1 + l + 4 * l * on (Nat.ltb (r + 3) n) + l * on (Nat.ltb (r + 4) n).
Proof. intros Q. unfold H. rewrite !d_over. unfold d, I, on. cases; cbn [andb]; ring. Qed.

(** * What is left of the matrix before step r *)

Record energy := mkE { eA : R; eB : R; eG : R }.
Definition sound (e : energy) : Prop := 0 <= eA e /\ 0 <= eB e /\ 0 <= eG e /\ eB e * eB e <= eA e * eG e.
Definition pivot (l : R) (e : energy) : R := l + eA e + 2 * eB e + eG e + 1.
Definition next (l : R) (e : energy) : energy :=
  mkE (eA e + 1 - (eA e + 1 + eB e) * (eA e + 1 + eB e) / pivot l e) (l * (eA e + 1 + eB e) / pivot l e) (l * (pivot l e - l) / pivot l e).
Definition left_at (n : nat) (l : R) (r : nat) (e : energy) (i j : nat) : R :=
  if Nat.eqb i r && Nat.eqb j r then l * on (Nat.ltb (r + 2) n) + eA e + 2 * eB e + eG e + 1
  else if Nat.eqb i r && Nat.eqb j (r + 1) || Nat.eqb i (r + 1) && Nat.eqb j r then - (eB e + eG e) - 2 * l * on (Nat.ltb (r + 2) n)
  else if Nat.eqb i (r + 1) && Nat.eqb j (r + 1) then eG e + 1 + 4 * l * on (Nat.ltb (r + 2) n) + l * on (Nat.ltb (r + 3) n)
  else H n l i j.
Definition shape (n : nat) (l : R) (r : nat) (e : energy) (s : system reals) : Prop :=
  forall i j, (r <= i < n)%nat -> (r <= j < n)%nat -> @Logic.eq R (get (s_a s) i j) (left_at n l r e i j).

Lemma pivot_one l e : 0 <= l -> sound e -> 1 <= pivot l e.
Proof. intros L (A & B & G & _). unfold pivot. lra. Qed.
Lemma next_sound l e : 0 <= l -> sound e -> sound (next l e).
Proof.
  intros L S. pose proof (pivot_one l e L S) as P. destruct S as (A & B & G & Q). set (p := pivot l e) in * .
  assert (Ep : p = l + eA e + 2 * eB e + eG e + 1) by reflexivity.
  unfold sound, next. cbn [eA eB eG]. fold p. set (a := eA e) in * . set (b := eB e) in * . set (g := eG e) in * .
  assert (Ip : 0 < / p) by (apply Rinv_0_lt_compat; lra).
  assert (E1 : a + 1 - (a + 1 + b) * (a + 1 + b) / p = ((a + 1) * (l + g) - b * b) / p) by (transitivity (((a + 1) * p - (a + 1 + b) * (a + 1 + b)) / p); [field; lra|unfold Rdiv; f_equal; rewrite Ep; ring]).
  split; [|split; [|split]].
  - rewrite E1. apply Rmult_le_pos; [|lra]. nra.
  - apply Rmult_le_pos; [|lra]. apply Rmult_le_pos; lra.
  - apply Rmult_le_pos; [|lra]. apply Rmult_le_pos; lra.
  - rewrite E1. replace (l * (a + 1 + b) / p * (l * (a + 1 + b) / p)) with ((l * l * ((a + 1 + b) * (a + 1 + b))) * (/ p * / p)) by (field; lra).
    replace (((a + 1) * (l + g) - b * b) / p * (l * (p - l) / p)) with ((l * (p - l) * ((a + 1) * (l + g) - b * b)) * (/ p * / p)) by (field; lra).
    apply Rmult_le_compat_r; [nra|]. replace (p - l) with (a + 2 * b + g + 1) by lra.
    assert (K : 0 <= (a + 1) * g - b * b) by nra.
    replace (l * (a + 2 * b + g + 1) * ((a + 1) * (l + g) - b * b)) with (l * l * ((a + 1) * (a + 2 * b + g + 1)) + l * (a + 2 * b + g + 1) * ((a + 1) * g - b * b)) by ring.
    assert (0 <= l * (a + 2 * b + g + 1) * ((a + 1) * g - b * b)) by (apply Rmult_le_pos; [apply Rmult_le_pos; lra|exact K]).
    assert (0 <= l * l * ((a + 1) * (a + 2 * b + g + 1) - (a + 1 + b) * (a + 1 + b))) by (apply Rmult_le_pos; [nra|nra]). lra.
Qed.
Lemma next_G l e : 0 <= l -> sound e -> l / (l + 1) <= eG (next l e).
Proof.
  intros L S. pose proof (pivot_one l e L S) as P. destruct S as (A & B & G & Q). cbn [eG next]. set (p := pivot l e) in * .
  assert (l + 1 <= p) by (unfold p, pivot; lra).
  replace (l * (p - l) / p) with (l * (1 - l / p)) by (field; lra). replace (l / (l + 1)) with (l * (1 - l / (l + 1))) by (field; lra).
  apply Rmult_le_compat_l; [exact L|]. assert (l / p <= l / (l + 1)); [|lra]. apply Rmult_le_compat_l; [exact L|]. apply Rinv_le_contravar; lra.
Qed.
Lemma left_sym n l r e i j : left_at n l r e i j = left_at n l r e j i.
Proof.
  unfold left_at. assert (S : H n l i j = H n l j i).
  { unfold H. f_equal; [unfold I; rewrite Nat.eqb_sym; reflexivity|]. f_equal. apply sum_ext. intros. ring. }
  rewrite S. cases; cbn [andb orb]; reflexivity.
Qed.

(** One step, with the elements written out. *)
Lemma step_get (A : arith) n r (s s' : system A) : gel_step A n r s = Some s' -> ZERO A (get (s_a s) r r) = false -> forall i j, (i < n)%nat -> (j < n)%nat ->
  get (s_a s') i j = if Nat.ltb r i && negb (ZERO A (get (s_a s) i r)) then add A (get (s_a s) i j) (mul A (dvd A (neg A (get (s_a s) i r)) (get (s_a s) r r)) (get (s_a s) r j)) else get (s_a s) i j.
Proof. intros E Z i j Hi Hj. unfold gel_step in E. rewrite Z in E. injection E as <-. cbn [s_a]. rewrite (get_build A) by assumption. reflexivity. Qed.
Lemma step_some (A : arith) n r (s : system A) : ZERO A (get (s_a s) r r) = false -> exists s', gel_step A n r s = Some s'.
Proof. intros Z. unfold gel_step. rewrite Z. eexists. reflexivity. Qed.
Lemma step_values n r (s s' : system reals) : gel_step reals n r s = Some s' -> ZERO reals (get (s_a s) r r) = false ->
  forall i j, (r < i < n)%nat -> (j < n)%nat -> (ZERO reals (get (s_a s) i r) = true -> @Logic.eq R (get (s_a s) i r) 0) ->
  @Logic.eq R (get (s_a s') i j) (get (s_a s) i j - get (s_a s) i r / get (s_a s) r r * get (s_a s) r j).
Proof.
  intros E Z i j Hi Hj Zi. rewrite (step_get reals n r s s' E Z i j) by lia. replace (Nat.ltb r i) with true by lia. rewrite andb_true_l.
  destruct (ZERO reals (get (s_a s) i r)) eqn:Q; unfold negb.
  - rewrite (Zi eq_refl). change (get (s_a s) i j = get (s_a s) i j - 0 / get (s_a s) r r * get (s_a s) r j). unfold Rdiv. rewrite !Rmult_0_l, Rminus_0_r. reflexivity.
  - change (get (s_a s) i j + - get (s_a s) i r / get (s_a s) r r * get (s_a s) r j = get (s_a s) i j - get (s_a s) i r / get (s_a s) r r * get (s_a s) r j). unfold Rdiv. ring.
Qed.

Section Step.
Context (n : nat) (l : R) (L : l = 0 \/ 2 * eps <= l).
Definition good (e : energy) : Prop := sound e /\ (l = 0 -> eB e = 0 /\ eG e = 0).
Lemma l_pos : 0 <= l.
Proof. pose proof eps_pos. lra. Qed.
Lemma next_good e : good e -> good (next l e).
Proof.
  intros (S & Z). split; [apply next_sound; [exact l_pos|exact S]|]. intros ->. cbn [next eB eG]. unfold Rdiv. rewrite !Rmult_0_l. split; reflexivity.
Qed.
Section One.
Context (r : nat) (e : energy) (s : system reals) (S : good e) (Sh : shape n l r e s).
Lemma col_0 : (r + 2 < n)%nat -> @Logic.eq R (get (s_a s) r r) (pivot l e).
Proof. intros Hr. rewrite (Sh r r) by lia. unfold left_at. rewrite !Nat.eqb_refl. cbn [andb]. replace (Nat.ltb (r + 2) n) with true by lia. unfold on, pivot. ring. Qed.
Lemma col_1 : (r + 2 < n)%nat -> @Logic.eq R (get (s_a s) (r + 1) r) (- (eB e + eG e + 2 * l)).
Proof. intros Hr. rewrite (Sh (r + 1)%nat r) by lia. unfold left_at. replace (Nat.ltb (r + 2) n) with true by lia. unfold on. cases; cbn [andb orb]; ring. Qed.
Lemma col_2 : (r + 2 < n)%nat -> @Logic.eq R (get (s_a s) (r + 2) r) l.
Proof. intros Hr. rewrite (Sh (r + 2)%nat r) by lia. unfold left_at. cases; cbn [andb orb]; apply H_2; lia. Qed.
Lemma col_3 i : (r + 2 < i < n)%nat -> @Logic.eq R (get (s_a s) i r) 0.
Proof. intros Hi. rewrite (Sh i r) by lia. unfold left_at. cases; cbn [andb orb]; apply H_far; lia. Qed.
Lemma trail_sym i j : (r <= i < n)%nat -> (r <= j < n)%nat -> @Logic.eq R (get (s_a s) i j) (get (s_a s) j i).
Proof. intros Hi Hj. rewrite (Sh i j), (Sh j i) by assumption. apply left_sym. Qed.
Lemma col_zero i : (r + 2 < n)%nat -> (r < i < n)%nat -> ZERO reals (get (s_a s) i r) = true -> @Logic.eq R (get (s_a s) i r) 0.
Proof.
  intros Hr Hi Z. apply ZERO_def in Z. pose proof eps_pos as Ep. destruct S as ((A & B & G & _) & Z0). pose proof l_pos as L0.
  destruct (Nat.eq_dec i (r + 1)) as [->|N1]; [|destruct (Nat.eq_dec i (r + 2)) as [->|N2]; [|apply col_3; lia]].
  - rewrite (col_1 Hr) in * . rewrite Rabs_Ropp, Rabs_right in Z by lra. destruct L as [E|E]; [|exfalso; lra].
    destruct (Z0 E) as (-> & ->). rewrite E. ring.
  - rewrite (col_2 Hr) in * . rewrite Rabs_right in Z by lra. destruct L as [E|E]; [exact E|exfalso; lra].
Qed.
Lemma pivot_not_zero : (r + 2 < n)%nat -> ZERO reals (get (s_a s) r r) = false.
Proof. intros Hr. rewrite (col_0 Hr). apply ZERO_big. apply pivot_one; [exact l_pos|apply S]. Qed.
Lemma step_shape s' : (r + 2 < n)%nat -> gel_step reals n r s = Some s' -> shape n l (r + 1) (next l e) s'.
Proof.
  intros Hr E i j Hi Hj.
  assert (W : forall i j, (r + 1 <= i < n)%nat -> (r + 1 <= j < n)%nat -> (i <= j)%nat -> @Logic.eq R (get (s_a s') i j) (left_at n l (r + 1) (next l e) i j)).
  { clear i j Hi Hj. intros i j Hi Hj Hij. rewrite (step_values n r s s' E (pivot_not_zero Hr) i j) by (try lia; apply col_zero; lia).
    rewrite (trail_sym r j) by lia. rewrite (col_0 Hr). pose proof (pivot_one l e l_pos (proj1 S)) as P. set (p := pivot l e) in * .
    assert (Pe : p = l + eA e + 2 * eB e + eG e + 1) by reflexivity.
    destruct (Nat.le_gt_cases (r + 3) j) as [J|J].
    - rewrite (col_3 j) by lia. rewrite Rmult_0_r, Rminus_0_r. rewrite (Sh i j) by lia. unfold left_at. cases; cbn [andb orb]; reflexivity.
    - destruct (Nat.eq_dec j (r + 1)) as [->|J1].
      + assert (i = (r + 1)%nat) by lia. subst i. rewrite (col_1 Hr), (Sh (r + 1)%nat (r + 1)%nat) by lia. unfold left_at. rewrite !Nat.eqb_refl. cbn [andb].
        replace (Nat.eqb (r + 1) r) with false by lia. cbn [andb orb]. replace (Nat.ltb (r + 2) n) with true by lia. replace (r + 1 + 2)%nat with (r + 3)%nat by lia.
        unfold next. cbn [eA eB eG]. fold p. unfold on at 1. set (o := on (Nat.ltb (r + 3) n)).
        apply (Rmult_eq_reg_r p); [|lra]. field_simplify; [|lra|lra]. rewrite Pe. ring.
      + assert (j = (r + 2)%nat) by lia. subst j. rewrite (col_2 Hr). destruct (Nat.eq_dec i (r + 1)) as [->|I1].
        * rewrite (col_1 Hr), (Sh (r + 1)%nat (r + 2)%nat) by lia. unfold left_at. replace (r + 1 + 2)%nat with (r + 3)%nat by lia. replace (r + 1 + 1)%nat with (r + 2)%nat by lia.
          rewrite (proj1 (H_1 n l r Hr)). set (o := on (Nat.ltb (r + 3) n)). set (o' := on (Nat.ltb (r + 2) n)). set (o'' := on (Nat.ltb (r + 1 + 3) n)). cases; cbn [andb orb].
          unfold next; cbn [eA eB eG]; fold p. apply (Rmult_eq_reg_r p); [|lra]; field_simplify; [|lra|lra]; rewrite Pe; ring.
        * assert (i = (r + 2)%nat) by lia. subst i. rewrite (col_2 Hr), (Sh (r + 2)%nat (r + 2)%nat) by lia. unfold left_at. replace (r + 1 + 2)%nat with (r + 3)%nat by lia. replace (r + 1 + 1)%nat with (r + 2)%nat by lia.
          replace (r + 1 + 3)%nat with (r + 4)%nat by lia. rewrite (H_0 n l r Hr). set (o := on (Nat.ltb (r + 3) n)). set (o' := on (Nat.ltb (r + 4) n)).
          cases; cbn [andb orb]. unfold next; cbn [eA eB eG]; fold p.
          apply (Rmult_eq_reg_r p); [|lra]; field_simplify; [|lra|lra]; rewrite Pe; ring. }
  destruct (Nat.le_ge_cases i j) as [Q|Q]; [apply W; assumption|].
  rewrite left_sym. rewrite <- (W j i) by assumption.
  rewrite (step_values n r s s' E (pivot_not_zero Hr) i j), (step_values n r s s' E (pivot_not_zero Hr) j i) by (try lia; apply col_zero; lia).
  rewrite (trail_sym j i), (trail_sym r i), (trail_sym r j) by lia. unfold Rdiv. ring.
Qed.
End One.
End Step.
