(** Estimation: the two exact arithmetics, instruments, what remains after a success. *)
From Coq Require Import ZArith List Bool Lia QArith Qcanon Reals Lra Field ZifyBool.
From Verif Require Import M_Base M_Exec M_Exact M_Real M_Matrix M_Estim S_Matrix S_Estim L_Matrix L_Simul3 L_Estim.
Import ListNotations.
Open Scope nat_scope.

(** * The rational numbers *)

Lemma qofZ_zero z : q_ofZ z = q_ofZ 0 -> z = 0%Z.
Proof.
  unfold q_ofZ. intros H. assert (Q : Qeq (inject_Z z) (inject_Z 0)) by (rewrite <- (Qred_correct (inject_Z z)), <- (Qred_correct (inject_Z 0)); change (Qeq (this (Q2Qc (inject_Z z))) (this (Q2Qc (inject_Z 0)))); rewrite H; reflexivity).
  unfold Qeq in Q. cbn in Q. lia.
Qed.
Lemma ordered_exactly : ordered_like exactly.
Proof.
  split; cbn [exactly F add sub mul neg lt ofZ sqrt abs].
  - exact exactly_field.
  - exact qofZ_zero.
  - vm_compute. reflexivity.
  - intros x y. change (q_ofZ 0) with 0%Qc. destruct (q_lt x y) eqn:E; symmetry.
    + apply q_lt_iff in E. apply q_lt_iff. unfold Qcminus. apply Qclt_minus_iff in E. apply Qclt_minus_iff. replace (0 + - (x + - y))%Qc with (y + - x)%Qc by ring. exact E.
    + apply q_lt_false in E. apply q_lt_false. apply Qcle_minus_iff in E. apply Qcle_minus_iff. replace (x - y + - 0)%Qc with (x + - y)%Qc by (unfold Qcminus; ring). exact E.
  - vm_compute. reflexivity.
  - intros x. apply q_lt_false. change (q_ofZ 0) with 0%Qc. destruct (Qclt_le_dec x 0) as [L|L].
    + replace (x * x)%Qc with ((- x) * (- x))%Qc by ring. assert (K : (0 <= - x)%Qc) by (apply Qclt_le_weak in L; apply Qcle_minus_iff in L; replace (0 + - x)%Qc with (- x)%Qc in L by ring; exact L).
      pose proof (Qcmult_le_compat_r 0 (- x) (- x) K K) as M. replace (0 * - x)%Qc with 0%Qc in M by ring. exact M.
    + pose proof (Qcmult_le_compat_r 0 x x L L) as M. replace (0 * x)%Qc with 0%Qc in M by ring. exact M.
  - intros x y Hx Hy. apply q_lt_false in Hx, Hy. apply q_lt_false. change (q_ofZ 0) with 0%Qc in * . pose proof (Qcplus_le_compat 0 x 0 y Hx Hy) as M. replace (0 + 0)%Qc with 0%Qc in M by ring. exact M.
  - intros x Hx Hy. apply q_lt_false in Hx, Hy. change (q_ofZ 0) with 0%Qc in * . apply Qcle_antisym; [|exact Hx].
    apply Qcle_minus_iff. replace (0 + - x)%Qc with (- x)%Qc by ring. exact Hy.
  - reflexivity.
  - vm_compute. reflexivity.
  - intros x N. change (q_ofZ 0) with 0%Qc in * . apply q_lt_iff. destruct (q_lt x 0) eqn:E.
    + apply q_lt_iff in E. apply Qclt_minus_iff in E. replace (0 + - x)%Qc with (- x)%Qc in E by ring. exact E.
    + apply q_lt_false in E. destruct (Qcle_lt_or_eq _ _ E) as [L|L]; [exact L|]. exfalso. apply N. symmetry. exact L.
  - vm_compute. reflexivity.
  - vm_compute. reflexivity.
Qed.

(** * The real numbers *)

Lemma r_lt_true x y : r_lt x y = true <-> (x < y)%R.
Proof. unfold r_lt. destruct (Rlt_dec x y); split; intros; try reflexivity; try assumption; try discriminate; contradiction. Qed.
Lemma r_lt_f x y : r_lt x y = false <-> (y <= x)%R.
Proof. unfold r_lt. destruct (Rlt_dec x y); split; intros; try reflexivity; try discriminate; lra. Qed.
Lemma reals_field : field_like reals.
Proof.
  split.
  - pose proof RealField.Rfield as [R O D I]. split.
    + exact R.
    + exact O.
    + intros p q. cbn. unfold Rdiv. rewrite Rmult_1_l. reflexivity.
    + intros p N. cbn. unfold Rdiv. rewrite Rmult_1_l. apply I. exact N.
  - intros x y. cbn. unfold r_eq. destruct (Req_EM_T x y); split; congruence.
  - change (r_lt (Rabs 0) (1 / IZR (10 ^ 25)) = true). apply r_lt_true. rewrite Rabs_R0. apply Rdiv_lt_0_compat; [lra|apply IZR_lt; lia].
Qed.
Lemma ordered_reals : ordered_like reals.
Proof.
  split; cbn [reals F add sub mul neg lt ofZ sqrt abs].
  - exact reals_field.
  - intros z H. apply eq_IZR in H. exact H.
  - apply r_lt_true. lra.
  - intros x y. unfold r_lt. destruct (Rlt_dec x y), (Rlt_dec (x - y) 0); try reflexivity; exfalso; lra.
  - apply r_lt_f. lra.
  - intros x. apply r_lt_f. nra.
  - intros x y Hx Hy. apply r_lt_f in Hx, Hy. apply r_lt_f. lra.
  - intros x Hx Hy. apply r_lt_f in Hx, Hy. lra.
  - apply sqrt_0.
  - apply Rabs_R0.
  - intros x N. apply r_lt_true. apply Rabs_pos_lt. exact N.
  - change (r_lt (Rabs 0) (1 / IZR (10 ^ 15)) = true). apply r_lt_true. rewrite Rabs_R0. apply Rdiv_lt_0_compat; [lra|apply IZR_lt; lia].
  - change (r_lt (Rabs (1 / 10)) (1 / IZR (10 ^ 15)) = false). apply r_lt_f. rewrite Rabs_right by lra. apply Rmult_le_compat_l; [lra|]. apply Rinv_le_contravar; [lra|]. apply IZR_le. lia.
Qed.

(** * The elimination does not look at the right hand side *)

Lemma gel_step_same A n r s s' : s_a s = s_a s' ->
  match gel_step A n r s, gel_step A n r s' with Some u, Some u' => s_a u = s_a u' | None, None => True | _, _ => False end.
Proof.
  intros E. unfold gel_step, M_gel_pivot. rewrite <- E. destruct (ZERO A (get (s_a s) r r)).
  - destruct (find _ _); [|exact I]. cbn [s_a]. reflexivity.
  - cbn [s_a]. rewrite <- E. reflexivity.
Qed.
Lemma gel_steps_same A n : forall rs s s', s_a s = s_a s' ->
  match gel_steps A n rs s, gel_steps A n rs s' with Some u, Some u' => s_a u = s_a u' | None, None => True | _, _ => False end.
Proof.
  induction rs as [|r rs IH]; intros s s' E; cbn; [exact E|]. pose proof (gel_step_same A n r s s' E) as K.
  destruct (gel_step A n r s) as [u|], (gel_step A n r s') as [u'|]; try contradiction; [apply IH; exact K|exact I].
Qed.
Lemma no_tiny_any A n a b : no_tiny A n a b -> forall b', no_tiny A n a b'.
Proof.
  intros H b' r s Hr E i Hi Z. pose proof (gel_steps_same A n (seq 0 r) (mkSys a b) (mkSys a b') eq_refl) as K. rewrite E in K.
  destruct (gel_steps A n (seq 0 r) (mkSys a b)) as [u|] eqn:Eu; [|contradiction]. rewrite <- K in * . exact (H r u Hr Eu i Hi Z).
Qed.

(** * After a success, whatever the equations and the method *)

Section After.
Context (A : arith) (FL : field_like A) (p : problem A).
Notation F := (F A).
Definition solved (s : state A) : Prop :=
  covariances A p (coefs s) (m_vcu s) /\ product_one A (NEQ p) (m_vcu s) (m_ivcu s)
  /\ forall i t, i < NEQ p -> t < T p -> get (m_rhs s) i t = rhs p i (coefs s) t /\ get (m_u s) i t = residual A p (coefs s) i t.
Add Field Fld2 : (fl_field A FL).
Lemma vcu_solved c u : (forall i t, i < NEQ p -> t < T p -> get u i t = residual A p c i t) -> covariances A p c (E_c_vcu A p u).
Proof.
  intros U i j Hi Hj. unfold E_c_vcu, M_scale, M_xxprim. rewrite !get_build by assumption. rewrite (total_Sum A).
  rewrite (Sum_ext A (T p) _ (fun t => mul A (residual A p c i t) (residual A p c j t))).
  - symmetry. apply (Fdiv_def (fl_field A FL)).
  - intros t Ht. rewrite !U by (try assumption; lia). destruct (Nat.le_ge_cases i j) as [L|L].
    + rewrite Nat.max_r, Nat.min_l by exact L. ring.
    + rewrite Nat.max_l, Nat.min_r by exact L. ring.
Qed.
Lemma residuals_solved c r u : E_residuals A p c = Some (r, u) -> forall i t, i < NEQ p -> t < T p -> get r i t = rhs p i c t /\ get u i t = residual A p c i t.
Proof.
  unfold E_residuals, E_c_rhs. destruct (forallb _ _); [|discriminate]. intros H i t Hi Ht. injection H as <- <-. unfold M_sub. rewrite !get_build by assumption. split; reflexivity.
Qed.
Lemma after_solved s s' : after A p s = inl s' -> solved s'.
Proof.
  unfold after. destruct (E_residuals A p (coefs s)) as [(r, u)|] eqn:Er; [|discriminate]. pose proof (residuals_solved _ _ _ Er) as Sr.
  destruct (E_c_ivcu A p (E_c_vcu A p u)) as [iv|] eqn:Ei; [|discriminate]. intros H. injection H as <-. unfold solved. cbn [coefs m_vcu m_ivcu m_rhs m_u].
  split; [apply vcu_solved; intros; apply Sr; assumption|]. split; [apply (inv_right A FL); exact Ei|exact Sr].
Qed.
Lemma found_solved c s : E_est A p c = Found s -> solved s.
Proof.
  unfold E_est. destruct (Nat.eqb _ _); [discriminate|]. destruct (Nat.ltb _ _); [discriminate|]. unfold E_gls.
  destruct (iterations A p _ _) as [(s1, b1)|]; [|discriminate]. destruct (after A p s1) as [s2|] eqn:E2; [|discriminate]. pose proof (after_solved _ _ E2) as S2.
  assert (K1 : (match E_c_ivcc A p (E_c_gmg A p (m_g (with_mcu A p s2)) (m_ivcu (with_mcu A p s2))) with
     | None => NotFound (coefs (with_mcu A p s2)) | Some v => gls_end A p (with_vcc A (with_mcu A p s2) v) b1 end) = Found s -> solved s).
  { destruct (E_c_ivcc A p _) as [v|]; [|discriminate]. unfold gls_end. destruct (_ && _)%bool; [|discriminate]. intros H. injection H as <-. exact S2. }
  assert (K2 : (match iterations A p (maxit p - it s2) (with_mcu A p s2) with
        | inr c => NotFound c
        | inl (s, conv) => match after A p s with
          | inr c => NotFound c
          | inl s => match E_c_ivcc A p (m_vcc s) with None => NotFound (coefs s) | Some v => gls_end A p (with_vcc A s v) conv end
          end end) = Found s -> solved s).
  { destruct (iterations A p _ _) as [(s3, b3)|]; [|discriminate]. destruct (after A p s3) as [s4|] eqn:E4; [|discriminate]. pose proof (after_solved _ _ E4) as S4.
    destruct (E_c_ivcc A p (m_vcc s4)) as [v|]; intros H; [|discriminate H]. unfold gls_end in H. destruct (_ && _)%bool; [|discriminate H]. injection H as <-. exact S4. }
  destruct (met p); assumption.
Qed.

(** * Instruments *)

Lemma prod_assoc (n m q : nat) (f g h : nat -> nat -> F) (i j : nat) : Sum A q (fun l => mul A (Sum A m (fun k => mul A (f i k) (g k l))) (h l j)) = Sum A m (fun k => mul A (f i k) (Sum A q (fun l => mul A (g k l) (h l j)))).
Proof.
  rewrite (Sum_ext A q _ (fun l => Sum A m (fun k => mul A (h l j) (mul A (f i k) (g k l))))) by (intros l Hl; rewrite (Sum_scale A FL); ring).
  rewrite (Sum_swap A FL q m). apply Sum_ext. intros k Hk. rewrite <- (Sum_scale A FL). apply Sum_ext. intros l Hl. ring.
Qed.
Lemma instrs_spec z d : E_prep_instrs A p z = Some d ->
  let zc := fun t j => match j with O => ofZ A 1 | S j => get z j t end in
  (forall t s, t < T p -> s < T p -> get d t s = get d s t)
  /\ (forall t j, t < T p -> j < S (length z) -> Sum A (T p) (fun s => mul A (get d t s) (zc s j)) = zc t j)
  /\ (forall t s, t < T p -> s < T p -> Sum A (T p) (fun k => mul A (get d t k) (get d k s)) = get d t s)
  /\ (forall v, (forall j, j < S (length z) -> Sum A (T p) (fun t => mul A (zc t j) (v t)) = ofZ A 0) -> forall t, t < T p -> Sum A (T p) (fun s => mul A (get d t s) (v s)) = ofZ A 0).
Proof.
  intros H zc. unfold E_prep_instrs in H. set (n := S (length z)) in * .
  set (mi := build A (T p) n (fun t j => match j with O => ofZ A 1 | S j => get z j t end)) in * .
  set (sm := M_xprimx A (T p) n mi) in * . destruct (M_inv_1 A n sm) as [w|] eqn:Ew; [|discriminate]. injection H as <-.
  pose proof (inv_right A FL _ _ _ Ew) as Pr. pose proof (inv_left A FL _ _ _ Ew) as Pl.
  assert (Mi : forall t j, t < T p -> j < n -> get mi t j = zc t j) by (intros t j Ht Hj; unfold mi; rewrite get_build by assumption; reflexivity).
  assert (Sm : forall a b, a < n -> b < n -> get sm a b = Sum A (T p) (fun t => mul A (zc t a) (zc t b))).
  { intros a b Ha Hb. unfold sm, M_xprimx. rewrite get_build by assumption. rewrite (total_Sum A). apply Sum_ext. intros t Ht.
    destruct (Nat.le_ge_cases a b) as [L|L].
    - rewrite Nat.max_r, Nat.min_l, !Mi by (assumption || exact L). ring.
    - rewrite Nat.max_l, Nat.min_r, !Mi by (assumption || exact L). ring. }
  assert (Ss : forall a b, a < n -> b < n -> get sm a b = get sm b a) by (intros a b Ha Hb; rewrite !Sm by assumption; apply Sum_ext; intros; ring).
  assert (Dd : forall t s, t < T p -> s < T p -> get (M_prod A (T p) n (T p) (M_prod A (T p) n n mi w) (M_trans A (T p) n mi)) t s
     = Sum A n (fun a => mul A (Sum A n (fun b => mul A (zc t b) (get w b a))) (zc s a))).
  { intros t s Ht Hs. unfold M_prod, M_trans. rewrite get_build by assumption. rewrite (total_Sum A). apply Sum_ext. intros a Ha.
    rewrite !get_build by assumption. rewrite (total_Sum A), Mi by assumption. f_equal. apply Sum_ext. intros b Hb. rewrite Mi by assumption. reflexivity. }
  (* The inverse is symmetric. *)
  assert (Ws : forall a b, a < n -> b < n -> get w a b = get w b a).
  { intros a b Ha Hb.
    transitivity (Sum A n (fun l => mul A (get w l a) (if Nat.eqb l b then ofZ A 1 else ofZ A 0))).
    2: { rewrite (Sum_one A FL n _ b Hb); [rewrite Nat.eqb_refl; ring|]. intros l Hl Nl. destruct (Nat.eqb_spec l b); [contradiction|ring]. }
    rewrite (Sum_ext A n _ (fun l => mul A (get w l a) (Sum A n (fun k => mul A (get sm l k) (get w k b))))) by (intros l Hl; rewrite (Pr l b Hl Hb); reflexivity).
    rewrite <- (prod_assoc n n n (fun i k => get w k i) (fun i k => get sm i k) (fun i k => get w i k) a b).
    rewrite (Sum_ext A n _ (fun l => mul A (if Nat.eqb l a then ofZ A 1 else ofZ A 0) (get w l b))).
    - rewrite (Sum_one A FL n _ a Ha); [rewrite Nat.eqb_refl; ring|]. intros l Hl Nl. destruct (Nat.eqb_spec l a); [contradiction|ring].
    - intros l Hl. f_equal. rewrite <- (Pr l a Hl Ha). apply Sum_ext. intros k Hk. rewrite (Ss k l Hk Hl). ring. }
  set (d := M_prod A (T p) n (T p) _ _) in * . clearbody d.
  assert (Dz : forall t j, t < T p -> j < n -> Sum A (T p) (fun s => mul A (get d t s) (zc s j)) = zc t j).
  { intros t j Ht Hj.
    rewrite (Sum_ext A (T p) _ (fun s => mul A (Sum A n (fun a => mul A (Sum A n (fun b => mul A (zc t b) (get w b a))) (zc s a))) (zc s j))) by (intros s Hs; rewrite Dd by assumption; reflexivity).
    rewrite (prod_assoc (T p) n (T p) (fun t a => Sum A n (fun b => mul A (zc t b) (get w b a))) (fun a s => zc s a) (fun s j => zc s j) t j).
    rewrite (Sum_ext A n _ (fun a => mul A (Sum A n (fun b => mul A (zc t b) (get w b a))) (get sm a j))) by (intros a Ha; rewrite Sm by assumption; reflexivity).
    rewrite (prod_assoc n n n (fun t b => zc t b) (fun b a => get w b a) (fun a j => get sm a j) t j).
    rewrite (Sum_one A FL n _ j Hj).
    - rewrite (Pl j j Hj Hj), Nat.eqb_refl. ring.
    - intros b Hb Nb. rewrite (Pl b j Hb Hj). destruct (Nat.eqb_spec b j); [contradiction|ring]. }
  assert (Sy : forall t s, t < T p -> s < T p -> get d t s = get d s t).
  { intros t s Ht Hs. rewrite !Dd by assumption.
    rewrite (Sum_ext A n _ (fun a => Sum A n (fun b => mul A (zc s a) (mul A (zc t b) (get w b a))))) by (intros a Ha; rewrite (Sum_scale A FL); ring).
    rewrite (Sum_swap A FL n n). apply Sum_ext. intros b Hb.
    transitivity (mul A (zc t b) (Sum A n (fun a => mul A (zc s a) (get w a b)))); [|ring]. rewrite <- (Sum_scale A FL). apply Sum_ext. intros a Ha. rewrite (Ws b a Hb Ha). ring. }
  split; [exact Sy|]. split; [exact Dz|]. split.
  - intros t s Ht Hs.
    rewrite (Sum_ext A (T p) _ (fun k => Sum A n (fun a => mul A (Sum A n (fun b => mul A (zc s b) (get w b a))) (mul A (get d t k) (zc k a))))).
    + rewrite (Sum_swap A FL (T p) n).
      rewrite (Sum_ext A n _ (fun a => mul A (Sum A n (fun b => mul A (zc s b) (get w b a))) (zc t a))) by (intros a Ha; rewrite (Sum_scale A FL), Dz by assumption; reflexivity).
      rewrite (Sy t s Ht Hs), Dd by assumption. reflexivity.
    + intros k Hk. rewrite (Sy k s Hk Hs), (Dd s k) by assumption. rewrite <- (Sum_scale A FL). apply Sum_ext. intros a Ha. ring.
  - intros v Hv t Ht.
    rewrite (Sum_ext A (T p) _ (fun s => Sum A n (fun a => mul A (Sum A n (fun b => mul A (zc t b) (get w b a))) (mul A (zc s a) (v s))))).
    + rewrite (Sum_swap A FL (T p) n). apply (Sum_zero A FL). intros a Ha. rewrite (Sum_scale A FL), Hv by exact Ha. ring.
    + intros s Hs. rewrite Dd by assumption. transitivity (mul A (v s) (Sum A n (fun a => mul A (Sum A n (fun b => mul A (zc t b) (get w b a))) (zc s a)))); [ring|].
      rewrite <- (Sum_scale A FL). apply Sum_ext. intros a Ha. ring.
Qed.
End After.
