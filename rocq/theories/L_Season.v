From Coq Require Import ZArith List Bool Reals Lra Lia FunctionalExtensionality.
From Verif Require Import M_Base M_Exec M_Real M_Season.
Import ListNotations.
Open Scope R_scope.
Ltac rr := try change (@Logic.eq (F reals)) with (@Logic.eq R); change (add reals) with Rplus; change (sub reals) with Rminus; change (mul reals) with Rmult; change (dvd reals) with Rdiv; change (ofZ reals) with IZR; change (abs reals) with Rabs; change (half reals) with (/ 2); change (sqrt reals) with R_sqrt.sqrt; change (lt reals) with r_lt; change (F reals) with R; cbv beta.

Lemma total_app (l1 l2 : list nat) g : total reals (l1 ++ l2) g = total reals l1 g + total reals l2 g.
Proof.
  unfold total. rr. rewrite fold_left_app. generalize (fold_left (fun s m => s + g m) l1 (IZR 0)). intros a. 
  assert (G : forall l b, fold_left (fun s m => s + g m) l b = b + fold_left (fun s m => s + g m) l (IZR 0)).
  { induction l as [|x l IH]; intros b; cbn [fold_left]; [lra|]. rewrite IH, (IH (IZR 0 + g x)). lra. }
  apply G.
Qed.
Lemma total_cons x l g : total reals (x :: l) g = g x + total reals l g.
Proof. change (x :: l) with ([x] ++ l). rewrite total_app. unfold total. cbn. lra. Qed.
Lemma total_ext l g h : (forall x, In x l -> g x = h x) -> total reals l g = total reals l h.
Proof. induction l as [|x l IH]; intros E; [reflexivity|]. rewrite !total_cons, (E x (or_introl eq_refl)), IH; [reflexivity|]. intros z H. apply E. right. exact H. Qed.
Lemma total_scale l g k : total reals l (fun x => k * g x) = k * total reals l g.
Proof. induction l as [|x l IH]; [unfold total; cbn; lra|]. rewrite !total_cons, IH. lra. Qed.
Lemma total_const l (k : R) : total reals l (fun _ => k) = IZR (Z.of_nat (length l)) * k.
Proof. induction l as [|x l IH]; [unfold total; cbn; lra|]. rewrite total_cons, IH. cbn [length]. rewrite Nat2Z.inj_succ, succ_IZR. lra. Qed.
Lemma total_zero l g : (forall x, In x l -> g x = 0) -> total reals l g = 0.
Proof. intros H. rewrite (total_ext l g (fun _ => 0) H), total_const. lra. Qed.

(** * Scale *)
Section Scale.
Variables (p y : nat) (k : R).
Hypothesis K : k <> 0.
Lemma div_scale a b : 100 * (k * a) / (k * b) = 100 * a / b.
Proof.
  unfold Rdiv. rewrite Rinv_mult. replace (100 * (k * a) * (/ k * / b)) with (100 * a * / b * (k * / k)) by ring. rewrite Rinv_r by exact K. ring.
Qed.
Lemma ai_scale v f : ai reals p (fun x => k * v x) f = k * ai reals p v f.
Proof.
  unfold ai. rr. rewrite (Rmult_plus_distr_l k), <- total_scale. f_equal; [|ring].
  apply total_ext. intros x _. rr. unfold Rdiv. ring.
Qed.
Lemma ratios_scale v : ratios reals p y (fun x => k * v x) = ratios reals p y v.
Proof.
  apply functional_extensionality. intros f. unfold ratios. destruct (within _ _ _); [|reflexivity]. rr. rewrite ai_scale. apply div_scale.
Qed.
Lemma first_scale v : first_bi reals p y (fun x => k * v x) = first_bi reals p y v.
Proof. unfold first_bi. rewrite ratios_scale. reflexivity. Qed.
Lemma longer_scale v : longer reals p y (fun x => k * v x) = fun f => k * longer reals p y v f.
Proof.
  apply functional_extensionality. intros f. unfold longer. rr. destruct (Nat.ltb f 7); [ring|]. destruct (Nat.ltb f (nb p y + 7)); ring.
Qed.
Lemma spencer_scale v : spencer reals p y (fun x => k * v x) = fun f => k * spencer reals p y v f.
Proof.
  apply functional_extensionality. intros f. unfold spencer. rewrite longer_scale, <- total_scale. apply total_ext. intros x _. rr. ring.
Qed.
Lemma quot_scale v (b : nat -> R) : (fun f => 100 * (k * v f) / b f) = fun f => k * (100 * v f / b f).
Proof. apply functional_extensionality. intros f. unfold Rdiv. ring. Qed.
Lemma second_scale v : second_bi reals p y (fun x => k * v x) = second_bi reals p y v.
Proof.
  unfold second_bi. rewrite first_scale. cbv zeta. rr. rewrite quot_scale, spencer_scale. cbv beta.
  set (ci := fun f => 100 * v f / first_bi reals p y v f). set (c1 := spencer reals p y ci).
  replace (fun f => 100 * (k * v f) / (k * c1 f)) with (fun f => 100 * v f / c1 f) by (apply functional_extensionality; intros f; symmetry; apply div_scale).
  assert (D : forall f, 100 * (100 * (k * v f) / first_bi reals p y v f) / (k * c1 f) = 100 * (100 * v f / first_bi reals p y v f) / c1 f).
  { intros f. replace (100 * (k * v f) / first_bi reals p y v f) with (k * (100 * v f / first_bi reals p y v f)) by (unfold Rdiv; ring). apply div_scale. }
  match goal with |- (if le_f reals ?a _ then _ else _) = (if le_f reals ?b _ then _ else _) => replace a with b; [reflexivity|] end.
  apply total_ext. intros f _. rr. rewrite !D. reflexivity.
Qed.
End Scale.

(** * A series that repeats itself *)
Lemma even_half n : Nat.even n = true -> n = (2 * (n / 2))%nat.
Proof. intros Ev. apply Nat.even_spec in Ev as [h ->]. rewrite (Nat.mul_comm 2 h), Nat.div_mul by lia. lia. Qed.
Section Periodic.
Variables (p y : nat).
Hypothesis P2 : (2 <= p)%nat.
Hypothesis Y3 : (3 <= y)%nat.
Definition periodic (s : nat -> R) : Prop := forall f, s (f + p)%nat = s f.
Lemma total_shift s a : periodic s -> total reals (seq a p) s = total reals (seq 0 p) s.
Proof.
  intros Pr. induction a as [|a IH]; [reflexivity|]. rewrite <- IH.
  assert (E : total reals (seq a (S p)) s = s a + total reals (seq (S a) p) s) by (cbn [seq]; apply total_cons).
  assert (E2 : total reals (seq a (S p)) s = total reals (seq a p) s + s (a + p)%nat).
  { rewrite seq_S, total_app, total_cons. unfold total at 2. cbn [fold_left]. rr. lra. }
  rewrite (Pr a) in E2. lra.
Qed.
Lemma total_seq_add a n g : total reals (seq 0 n) (fun m => g (a + m)%nat) = total reals (seq a n) g.
Proof.
  revert a. induction n as [|n IH]; intros a; [reflexivity|]. rewrite !seq_S, !total_app, IH. f_equal. 
Qed.
Lemma ai_periodic s f : Nat.even p = true -> periodic s -> (p / 2 <= f)%nat -> ai reals p s f = total reals (seq 0 p) s / IZR (Z.of_nat p).
Proof.
  intros Ev Pr L. pose proof (even_half p Ev) as H2.
  unfold ai. rr. rewrite <- (total_shift s (f - (p / 2 - 1))%nat Pr). rewrite (total_seq_add (f - (p / 2 - 1))%nat (p - 1) (fun x => s x / IZR (Z.of_nat p))).
  replace (s (f - p / 2)%nat) with (s (f + p / 2)%nat) by (rewrite <- (Pr (f - p / 2)%nat); f_equal; lia).
  replace (total reals (seq (f - (p / 2 - 1)) p) s) with (total reals (seq (f - (p / 2 - 1)) (p - 1)) s + s (f + p / 2)%nat).
  2:{ replace p with (S (p - 1)) at 5 by lia. rewrite seq_S, total_app, total_cons. unfold total at 3. cbn [fold_left]. rr. rewrite Rplus_0_r. do 2 f_equal. lia. }
  replace (total reals (seq (f - (p / 2 - 1)) (p - 1)) (fun x => s x / IZR (Z.of_nat p))) with (/ IZR (Z.of_nat p) * total reals (seq (f - (p / 2 - 1)) (p - 1)) s).
  2:{ rewrite <- total_scale. apply total_ext. intros x _. rr. unfold Rdiv. ring. }
  rewrite Nat2Z.inj_mul, mult_IZR. assert (IZR (Z.of_nat p) <> 0) by (apply not_0_IZR; lia). change (IZR (Z.of_nat 2)) with 2. field. exact H.
Qed.
Definition agrees (s b : nat -> R) (lo hi : nat) : Prop := forall f, (lo <= f < hi)%nat -> b f = s f.
Lemma mod_periodic s : periodic s -> forall f, s (f mod p)%nat = s f.
Proof.
  intros Pr f. rewrite (Nat.div_mod f p) at 2 by lia. generalize (f mod p)%nat. intros r. induction (f / p)%nat as [|q IH]; [f_equal; lia|].
  rewrite IH, <- Pr. f_equal. lia.
Qed.
Lemma col_periodic s j m : periodic s -> s (p * j + m)%nat = s m.
Proof. intros Pr. induction j as [|j IH]; [f_equal; lia|]. rewrite <- IH, <- (Pr (p * j + m)%nat). f_equal. lia. Qed.
Lemma mean2_same x : mean2 reals x x = x. Proof. unfold mean2. rr. lra. Qed.
Lemma fifth_same ma c j : (forall k, (k < 5)%nat -> ma (j + k)%nat = c) -> fifth reals ma j = c.
Proof.
  intros H. unfold fifth. rr. rewrite (total_ext _ _ (fun _ => 1 / 5 * c)); [rewrite total_const; cbn; lra|]. intros k Hk. apply in_seq in Hk. rr. rewrite H by lia. reflexivity.
Qed.
Lemma spread_zero m js m5 z bi : (forall j, In j js -> bi (p * j + m)%nat = m5 j) -> spread reals p m js m5 z bi = 0.
Proof.
  intros H. unfold spread. rr. rewrite total_zero; [rewrite Rmult_0_l; apply sqrt_0|]. intros j Hj. rr. rewrite (H j Hj). ring.
Qed.
Lemma clean_same m js m5 bi : (forall j, In j js -> bi (p * j + m)%nat = m5 j) -> clean reals p y m js m5 0 bi = bi.
Proof.
  unfold clean. induction js as [|j js IH]; intros H; [reflexivity|]. cbn [fold_left].
  replace (lt reals (mul reals (ofZ reals 2) 0) (abs reals (sub reals (bi (p * j + m)%nat) (m5 j)))) with false.
  - apply IH. intros i Hi. apply H. right. exact Hi.
  - symmetry. rr. rewrite (H j (or_introl eq_refl)). replace (m5 j - m5 j) with 0 by ring. rewrite Rabs_R0. unfold r_lt. destruct (Rlt_dec _ _); [lra|reflexivity].
Qed.
(** The months do not change. *)
Lemma month_first_same s bi m : periodic s -> agrees s bi (p / 2) (nb p y - p / 2) -> (m < p)%nat -> Nat.even p = true -> month_first reals p y bi m = bi.
Proof.
  intros Pr A M Ev. pose proof (even_half p Ev) as H2.
  assert (NB : nb p y = (p * y)%nat) by reflexivity. unfold month_first.
  set (js := if Nat.ltb m (p / 2) then seq 1 (y - 1) else seq 0 (y - 1)). set (m5 := fun j => if Nat.ltb m (p / 2) then fifth reals (ma_first reals p y m bi) (j - 1) else fifth reals (ma_first reals p y m bi) j).
  assert (C : forall j, (if Nat.ltb m (p / 2) then 1 <= j < y else j < y - 1)%nat -> bi (p * j + m)%nat = s m).
  { intros j Hj. rewrite A; [apply col_periodic; exact Pr|]. rewrite NB. destruct (Nat.ltb_spec m (p / 2)) as [L|L]; nia. }
  assert (B : forall j, In j js -> bi (p * j + m)%nat = m5 j).
  { intros j Hj. unfold js, m5 in *. destruct (Nat.ltb_spec m (p / 2)) as [L|L]; apply in_seq in Hj.
    - rewrite (C j) by lia. symmetry. apply fifth_same. intros k Hk. unfold ma_first. replace (Nat.ltb m (p / 2)) with true by (symmetry; apply Nat.ltb_lt; exact L).
      destruct (Nat.leb_spec (j - 1 + k) 1); [rewrite !C by lia; apply mean2_same|]. destruct (Nat.leb_spec (j - 1 + k) y); [apply C; lia|]. rewrite !C by lia. apply mean2_same.
    - rewrite (C j) by lia. symmetry. apply fifth_same. intros k Hk. unfold ma_first. replace (Nat.ltb m (p / 2)) with false by (symmetry; apply Nat.ltb_ge; exact L).
      destruct (Nat.leb_spec (j + k) 1); [rewrite !C by lia; apply mean2_same|]. destruct (Nat.leb_spec (j + k) y); [apply C; lia|]. rewrite !C by lia. apply mean2_same. }
  rewrite spread_zero by exact B. apply clean_same. exact B.
Qed.
Lemma month_all_same s bi m : periodic s -> agrees s bi 0 (nb p y) -> (m < p)%nat -> month_all reals p y bi m = bi.
Proof.
  intros Pr A M. unfold month_all. assert (C : forall j, (j < y)%nat -> bi (p * j + m)%nat = s m) by (intros j Hj; rewrite A; [apply col_periodic; exact Pr|]; unfold nb; nia).
  assert (B : forall j, In j (seq 0 y) -> bi (p * j + m)%nat = fifth reals (ma_all reals p y m bi) j).
  { intros j Hj. apply in_seq in Hj. rewrite (C j) by lia. symmetry. apply fifth_same. intros k Hk. unfold ma_all.
    destruct (Nat.leb_spec (j + k) 1); [rewrite !C by lia; apply mean2_same|]. destruct (Nat.leb_spec (j + k) (y + 1)); [apply C; lia|]. rewrite !C by lia. apply mean2_same. }
  rewrite spread_zero by exact B. apply clean_same. exact B.
Qed.
Lemma fold_same {B C} (g : B -> C -> B) l b : (forall c, In c l -> g b c = b) -> fold_left g l b = b.
Proof. induction l as [|c l IH]; intros H; [reflexivity|]. cbn [fold_left]. rewrite (H c (or_introl eq_refl)). apply IH. intros d Hd. apply H. right. exact Hd. Qed.
Lemma ends_same s bi : periodic s -> Nat.even p = true -> agrees s bi (p / 2) (nb p y - p / 2) -> agrees s (ends reals p y bi) 0 (nb p y).
Proof.
  intros Pr Ev A f Hf. pose proof (even_half p Ev) as H2.
  assert (NB : nb p y = (p * y)%nat) by reflexivity. assert (N3 : (3 * p <= nb p y)%nat) by (rewrite NB; nia). unfold ends.
  destruct (Nat.leb_spec (nb p y - p / 2) f) as [L|L].
  - replace (Nat.ltb (f - p) (p / 2)) with false by (symmetry; apply Nat.ltb_ge; lia). rewrite A by lia. rewrite <- Pr. f_equal. lia.
  - destruct (Nat.ltb_spec f (p / 2)) as [L2|L2]; [rewrite A by lia; apply Pr|apply A; lia].
Qed.
Lemma centred_same s bi : periodic s -> total reals (seq 0 p) s = IZR (Z.of_nat p) * 100 -> agrees s bi 0 (nb p y) -> agrees s (centred reals p bi) 0 (nb p y).
Proof.
  intros Pr T A f Hf. unfold centred. rr. rewrite (total_ext _ _ s).
  - rewrite T, mult_IZR, A by exact Hf. unfold Rdiv. ring.
  - intros m Hm. apply in_seq in Hm. rewrite A; [apply col_periodic; exact Pr|]. split; [lia|]. unfold nb in *.
    assert (f / p < y)%nat by (apply Nat.div_lt_upper_bound; lia). nia.
Qed.
Lemma ma_all_same s bi m j : periodic s -> agrees s bi 0 (nb p y) -> (m < p)%nat -> (j < y + 4)%nat -> ma_all reals p y m bi j = s m.
Proof.
  intros Pr A M J. assert (C : forall i, (i < y)%nat -> bi (p * i + m)%nat = s m) by (intros i Hi; rewrite A; [apply col_periodic; exact Pr|]; unfold nb; nia).
  unfold ma_all. destruct (Nat.leb_spec j 1); [rewrite !C by lia; apply mean2_same|]. destruct (Nat.leb_spec j (y + 1)); [apply C; lia|]. rewrite !C by lia. apply mean2_same.
Qed.
Lemma year_lt f : (f < nb p y)%nat -> (f / p < y)%nat /\ (f mod p < p)%nat.
Proof. intros H. unfold nb in H. split; [apply Nat.div_lt_upper_bound; lia|apply Nat.mod_upper_bound; lia]. Qed.
Lemma smooth5_same s bi : periodic s -> agrees s bi 0 (nb p y) -> agrees s (smooth5 reals p y bi) 0 (nb p y).
Proof.
  intros Pr A f Hf. destruct (year_lt f (proj2 Hf)) as [L1 L2]. unfold smooth5. rr. rewrite (total_ext _ _ (fun k => s f * (w5 reals k / 9))).
  - rewrite total_scale. unfold total, w5. cbn. rr. lra.
  - intros k Hk. apply in_seq in Hk. rr. rewrite (ma_all_same s bi) by (assumption || lia). rewrite mod_periodic by exact Pr. ring.
Qed.
Lemma longer_same v c k : (forall f, (f < nb p y)%nat -> v f = c) -> (k < nb p y + 14)%nat -> longer reals p y v k = c.
Proof.
  intros H K. assert (N4 : (4 < nb p y)%nat) by (unfold nb; nia). unfold longer. rr. destruct (Nat.ltb k 7) eqn:E; [rewrite !H by lia; lra|].
  apply Nat.ltb_ge in E. destruct (Nat.ltb_spec k (nb p y + 7)); [apply H; lia|]. rewrite !H by lia. lra.
Qed.
Lemma spencer_same v c f : (forall f, (f < nb p y)%nat -> v f = c) -> (f < nb p y)%nat -> spencer reals p y v f = c.
Proof.
  intros H K. unfold spencer. rr. rewrite (total_ext _ _ (fun k => c * (w15 reals k / 320))).
  - rewrite total_scale. unfold total, w15. cbn. rr. lra.
  - intros k Hk. apply in_seq in Hk. rr. rewrite (longer_same v c) by (assumption || lia). ring.
Qed.
End Periodic.
