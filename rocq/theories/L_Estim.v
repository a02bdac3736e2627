(** Lemmas on the estimation of linear equations in an exact arithmetic. *)
From Coq Require Import ZArith List Bool Lia Field.
From Verif Require Import M_Base M_Exec M_Matrix M_Estim S_Matrix S_Estim L_Matrix.
Import ListNotations.
Open Scope nat_scope.

Section Estim.
Context (A : arith) (OL : ordered_like A).
Notation F := (F A).
Notation "x +. y" := (add A x y) (at level 50, left associativity).
Notation "x -. y" := (sub A x y) (at level 50, left associativity).
Notation "x *. y" := (mul A x y) (at level 40, left associativity).
Notation "x /. y" := (dvd A x y) (at level 40, left associativity).
Notation "~. x" := (neg A x) (at level 35, right associativity).
Notation "# z" := (ofZ A z) (at level 1).
Let FL := ol_field A OL.
Let Ft := fl_field A FL.
Add Field AField : Ft.
Notation Sum := (Sum A).

Lemma upd_length k x (c : list F) : length (upd A k x c) = length c.
Proof. unfold upd. rewrite map_length, seq_length. reflexivity. Qed.
Lemma upd_nth k x (c : list F) i : i < length c -> nth i (upd A k x c) #0 = if Nat.eqb i k then x else nth i c #0.
Proof. intros H. unfold upd. rewrite nth_seq_map by exact H. reflexivity. Qed.
Lemma list_ext (c d : list F) : length c = length d -> (forall i, i < length c -> nth i c #0 = nth i d #0) -> c = d.
Proof. intros L H. apply nth_ext with (d := #0) (d' := #0); assumption. Qed.
Lemma upd_same k (c : list F) : upd A k (nth k c #0) c = c.
Proof.
  apply list_ext; [apply upd_length|]. intros i Hi. rewrite upd_length in Hi. rewrite upd_nth by exact Hi.
  destruct (Nat.eqb_spec i k) as [->|]; reflexivity.
Qed.
Lemma nonneg_sum n f : (forall k, k < n -> lt A (f k) #0 = false) -> lt A (Sum n f) #0 = false.
Proof.
  induction n as [|n IH]; intros H; cbn; [apply (ol_irrefl A OL)|]. apply (ol_add A OL); [apply IH; intros k Hk; apply H; lia|apply H; lia].
Qed.

(** * Sums of matrices *)

Lemma build_ext n m (f g : nat -> nat -> F) : (forall i j, i < n -> j < m -> f i j = g i j) -> build A n m f = build A n m g.
Proof.
  intros H. unfold build. apply map_ext_in. intros i Hi. apply map_ext_in. intros j Hj. apply in_seq in Hi, Hj. apply H; lia.
Qed.
Lemma fold_sum_r n m (f : nat -> mat A) : forall N, fold_left (fun v i => M_add A n m (f i) v) (seq 0 N) (M_clear A n m)
  = build A n m (fun a b => Sum N (fun i => get (f i) a b)).
Proof.
  induction N as [|N IH]; [reflexivity|]. rewrite seq_S, fold_left_app, IH. cbn [Nat.add fold_left]. unfold M_add. apply build_ext.
  intros i j Hi Hj. rewrite get_build by assumption. cbn [S_Matrix.Sum]. ring.
Qed.
Lemma fold_sum_l n m (f : nat -> mat A) : forall N, fold_left (fun v i => M_add A n m v (f i)) (seq 0 N) (M_clear A n m)
  = build A n m (fun a b => Sum N (fun i => get (f i) a b)).
Proof.
  induction N as [|N IH]; [reflexivity|]. rewrite seq_S, fold_left_app, IH. cbn [Nat.add fold_left]. unfold M_add. apply build_ext.
  intros i j Hi Hj. rewrite get_build by assumption. cbn [S_Matrix.Sum]. ring.
Qed.

Section Problem.
Context (p : problem A) (X : nat -> nat -> nat -> F) (base : nat -> nat -> F).
Hypothesis Lin : linear A p X base.
Hypothesis Full : full_steps A p.
Notation NC := (length (relax p)).
Notation NE := (length (est A p)).
Notation e a := (nth a (est A p) 0).

Lemma estimated_spec k : estimated A p k = true <-> nth k (relax p) #0 <> #0.
Proof.
  unfold estimated. rewrite negb_true_iff. split.
  - intros H E. rewrite (proj2 (fl_eq A FL _ _) E) in H. discriminate.
  - intros H. destruct (eq A _ _) eqn:E; [|reflexivity]. apply (fl_eq A FL) in E. contradiction.
Qed.
Lemma est_spec k : In k (est A p) <-> is_estimated A p k.
Proof. unfold est, is_estimated. rewrite filter_In, in_seq, estimated_spec. split; intros (H & K); split; try exact K; lia. Qed.
Lemma est_at a : a < NE -> is_estimated A p (e a).
Proof. intros H. apply est_spec. apply nth_In. exact H. Qed.
Lemma est_find k : is_estimated A p k -> exists a, a < NE /\ e a = k.
Proof. intros H. apply est_spec in H. destruct (In_nth _ _ 0 H) as (a & Ha & E). exists a. split; assumption. Qed.
Lemma NCE_est : NCE A p = NE.
Proof.
  unfold NCE, est, estimated. pose proof Full as H. unfold full_steps in H. revert H. generalize (relax p) as l.
  assert (G : forall l, (forall r, In r l -> r = #0 \/ r = #1) -> forall s (q : list F), length q = s ->
    length (filter (fun r => lt A #0 r) l) = length (filter (fun k => negb (eq A (nth k (q ++ l) #0) #0)) (seq s (length l)))).
  { induction l as [|r l IH]; intros H s q L; [reflexivity|]. cbn [length seq filter]. rewrite app_nth2, L, Nat.sub_diag by lia. cbn [nth].
    specialize (IH ltac:(intros; apply H; right; assumption) (S s) (q ++ [r]) ltac:(rewrite app_length; cbn; lia)). rewrite <- app_assoc in IH. cbn [app] in IH.
    destruct (H r (or_introl eq_refl)) as [->| ->].
    - rewrite (ol_irrefl A OL), (proj2 (fl_eq A FL _ _) eq_refl). cbn [negb]. exact IH.
    - rewrite (ol_one A OL). destruct (eq A #1 #0) eqn:E; [apply (fl_eq A FL) in E; destruct (one_zero A FL E)|]. cbn [negb length]. rewrite IH. reflexivity. }
  intros l H. apply (G l H 0 []). reflexivity.
Qed.
Lemma relax_one k : is_estimated A p k -> nth k (relax p) #0 = #1.
Proof. intros (H & N). destruct (Full (nth k (relax p) #0) (nth_In _ _ H)) as [E|E]; [contradiction|exact E]. Qed.

(** * Residuals *)

Lemma residuals_spec c r u : E_residuals A p c = Some (r, u) ->
  forall i t, i < NEQ p -> t < T p -> get r i t = rhs p i c t /\ get u i t = residual A p c i t.
Proof.
  unfold E_residuals, E_c_rhs. destruct (forallb _ _); [|discriminate]. intros H. injection H as <- <-. intros i t Hi Ht.
  unfold M_sub. rewrite !get_build by assumption. split; reflexivity.
Qed.
Lemma rhs_upd i c t k x : i < NEQ p -> t < T p -> k < NC -> length c = NC ->
  rhs p i (upd A k x c) t = rhs p i c t +. X i k t *. (x -. nth k c #0).
Proof.
  intros Hi Ht Hk Lc. rewrite !(proj1 Lin) by assumption.
  rewrite (Sum_ext A NC _ (fun j => X i j t *. put A (fun k => nth k c #0) k x j)).
  - rewrite (sum_put A FL) by exact Hk. ring.
  - intros j Hj. rewrite upd_nth by lia. unfold put. reflexivity.
Qed.

(** * The derivatives *)

Definition row_ok (k : nat) (row : list F) : Prop := forall i t, i < NEQ p -> t < T p -> nth (T p * i + t) row #0 = X i k t.
Lemma h_nonzero : step_h A <> #0.
Proof.
  intros E. assert (Z : #10000%Z <> #0) by (intros K; apply (ol_ofZ A OL) in K; lia).
  apply (one_zero A FL). transitivity (step_h A *. #10000%Z); [unfold step_h; field; exact Z|]. rewrite E. ring.
Qed.
Lemma tiny_nonzero x : tiny A x = false -> x <> #0.
Proof. intros H ->. rewrite (ol_tiny A OL) in H. discriminate. Qed.
Lemma mod_spec r k c row : length c = NC -> k < NC -> tiny A (nth k c #0) = false -> (forall i t, i < NEQ p -> t < T p -> get r i t = rhs p i c t) ->
  E_mod_residuals A p r k (upd A k (nth k c #0 *. (#1 +. step_h A)) c) (nth k c #0 *. step_h A) = Some row -> row_ok k row.
Proof.
  intros Lc Hk Tk Hr. unfold E_mod_residuals. destruct (forallb _ _) eqn:Fb; [|discriminate]. intros H. injection H as <-.
  intros i t Hi Ht. assert (HN : T p * i + t < NEQ p * T p) by nia.
  assert (Q1 : Nat.div (T p * i + t) (T p) = i) by (rewrite Nat.mul_comm, Nat.div_add_l, Nat.div_small by lia; lia).
  assert (Q2 : Nat.modulo (T p * i + t) (T p) = t) by (rewrite Nat.add_comm, Nat.mul_comm, Nat.mod_add, Nat.mod_small by lia; reflexivity).
  rewrite nth_seq_map by exact HN. rewrite Q1, Q2. rewrite forallb_forall in Fb. specialize (Fb _ (proj2 (in_seq _ 0 _) (conj (Nat.le_0_l _) HN))). rewrite Q1, Q2 in Fb.
  destruct (in_eq p k i) eqn:I; [|symmetry; apply (proj2 Lin); exact I]. cbn [negb orb] in Fb.
  destruct (lt A (rhs p i _ t) (MAXFLOAT A)); [|rewrite (num_na A) in Fb; discriminate].
  rewrite rhs_upd, Hr by assumption. pose proof (tiny_nonzero _ Tk). pose proof h_nonzero. field. split; assumption.
Qed.
Lemma jacobian_spec r c : length c = NC -> no_zero_coef A p c -> (forall i t, i < NEQ p -> t < T p -> get r i t = rhs p i c t) ->
  forall ks rows c' g, (forall k, In k ks -> k < NC) -> jacobian A p r ks c rows = (c', g) ->
  c' = c /\ forall m, g = Some m -> exists rs, m = rows ++ rs /\ Forall2 row_ok (filter (estimated A p) ks) rs.
Proof.
  intros Lc NZ Hr. induction ks as [|k ks IH]; intros rows c' g Hk H; cbn in H.
  - injection H as <- <-. split; [reflexivity|]. intros m E. injection E as <-. exists []. rewrite app_nil_r. split; [reflexivity|constructor].
  - cbn [filter]. destruct (estimated A p k) eqn:Ek.
    + assert (Kk : k < NC) by (apply Hk; left; reflexivity).
      assert (Tk : tiny A (nth k c #0) = false) by (apply NZ; split; [exact Kk|apply estimated_spec; exact Ek]).
      rewrite Tk, upd_same in H. destruct (E_mod_residuals A p r k _ _) as [row|] eqn:Em.
      * destruct (IH (rows ++ [row]) c' g ltac:(intros; apply Hk; right; assumption) H) as (-> & G). split; [reflexivity|].
        intros m E. destruct (G m E) as (rs & -> & Fr). exists (row :: rs). rewrite <- app_assoc. split; [reflexivity|]. constructor; [|exact Fr].
        exact (mod_spec r k c row Lc Kk Tk Hr Em).
      * injection H as <- <-. split; [reflexivity|]. intros m E. discriminate E.
    + apply IH; [intros; apply Hk; right; assumption|exact H].
Qed.
Lemma forall2_nth {U V} (R : U -> V -> Prop) l m : Forall2 R l m -> length l = length m /\ forall a du dv, a < length l -> R (nth a l du) (nth a m dv).
Proof.
  induction 1 as [|u v l m Huv _ (L & IH)]; [split; [reflexivity|intros; cbn in *; lia]|]. cbn. split; [lia|].
  intros [|a] du dv Ha; [exact Huv|apply IH; lia].
Qed.
Definition g_ok (g : mat A) : Prop := forall a i t, a < NE -> i < NEQ p -> t < T p -> get g a (T p * i + t) = X i (e a) t.
Lemma E_jacobian_spec r c c' g : length c = NC -> no_zero_coef A p c -> (forall i t, i < NEQ p -> t < T p -> get r i t = rhs p i c t) ->
  E_jacobian A p r c = (c', g) -> c' = c /\ forall m, g = Some m -> g_ok m.
Proof.
  intros Lc NZ Hr H. destruct (jacobian_spec r c Lc NZ Hr (seq 0 NC) [] c' g ltac:(intros k K; apply in_seq in K; lia) H) as (-> & G).
  split; [reflexivity|]. intros m E. destruct (G m E) as (rs & -> & Fr). cbn [app]. apply forall2_nth in Fr. destruct Fr as (L & R).
  intros a i t Ha Hi Ht. unfold get. apply (R a 0 [] Ha); assumption.
Qed.

(** * The matrices of the normal equations *)

Definition treat (b : bool) (f : nat -> F) (t : nat) : F := if b then Sum (T p) (fun s => get (D p) t s *. f s) else f t.
Lemma treat_ext b f g t : t < T p -> (forall s, s < T p -> f s = g s) -> treat b f t = treat b g t.
Proof. intros Ht H. unfold treat. destruct b; [|apply H; exact Ht]. apply Sum_ext. intros s Hs. rewrite H by exact Hs. reflexivity. Qed.
Lemma gmg_spec g w : g_ok g -> E_c_gmg A p g w = build A NE NE (fun a b =>
  Sum (NEQ p) (fun i => Sum (T p) (fun t => X i (e a) t *. treat (Nat.ltb 1 (ninstr p)) (fun s => Sum (NEQ p) (fun j => get w i j *. X j (e b) s)) t))).
Proof.
  intros G. unfold E_c_gmg. rewrite NCE_est, fold_sum_r. apply build_ext. intros a b Ha Hb. apply Sum_ext. intros i Hi.
  unfold M_prod at 1. rewrite get_build by assumption. rewrite (total_Sum A). apply Sum_ext. intros t Ht.
  unfold M_extr at 1. rewrite get_build by assumption. cbn [Nat.add]. rewrite (G a i t Ha Hi Ht). f_equal.
  rewrite fold_sum_l.
  assert (Wt : forall s, s < T p -> Sum (NEQ p) (fun i0 => get (M_scale A (T p) NE (M_trans A NE (T p) (M_extr A g 0 (T p * i0) NE (T p))) (get w i i0)) s b)
     = Sum (NEQ p) (fun j => get w i j *. X j (e b) s)).
  { intros s Hs. apply Sum_ext. intros j Hj. unfold M_scale, M_trans, M_extr. rewrite !get_build by assumption. cbn [Nat.add]. rewrite (G b j s Hb Hj Hs). ring. }
  unfold treat. destruct (Nat.ltb 1 (ninstr p)).
  - unfold M_prod. rewrite get_build by assumption. rewrite (total_Sum A). apply Sum_ext. intros s Hs. rewrite get_build by assumption. rewrite (Wt s Hs). reflexivity.
  - rewrite get_build by assumption. apply Wt. exact Ht.
Qed.
Lemma gmu_spec g u w v : g_ok g -> (forall i t, i < NEQ p -> t < T p -> get u i t = v i t) -> E_c_gmu A p g u w = map (fun a =>
  Sum (NEQ p) (fun i => Sum (T p) (fun t => X i (e a) t *. treat (Nat.leb 1 (ninstr p)) (fun s => Sum (NEQ p) (fun j => get w i j *. v j s)) t))) (seq 0 NE).
Proof.
  intros G U. unfold E_c_gmu. rewrite NCE_est. apply map_ext_in. intros a Ha. apply in_seq in Ha. rewrite fold_sum_r, get_build by lia. apply Sum_ext. intros i Hi.
  unfold M_prod at 1. rewrite get_build by lia. rewrite (total_Sum A). apply Sum_ext. intros t Ht.
  unfold M_extr at 1. rewrite get_build by lia. cbn [Nat.add]. rewrite (G a i t ltac:(lia) Hi Ht). f_equal.
  rewrite fold_sum_l.
  assert (Wt : forall s, s < T p -> Sum (NEQ p) (fun i0 => get (M_scale A (T p) 1 (M_trans A 1 (T p) (M_extr A u i0 0 1 (T p))) (get w i i0)) s 0)
     = Sum (NEQ p) (fun j => get w i j *. v j s)).
  { intros s Hs. apply Sum_ext. intros j Hj. unfold M_scale, M_trans, M_extr. rewrite !get_build by lia. rewrite Nat.add_0_r. cbn [Nat.add]. rewrite (U j s Hj Hs). ring. }
  unfold treat. destruct (Nat.leb 1 (ninstr p)).
  - unfold M_prod. rewrite get_build by lia. rewrite (total_Sum A). apply Sum_ext. intros s Hs. rewrite get_build by lia. rewrite (Wt s Hs). reflexivity.
  - rewrite get_build by lia. apply Wt. exact Ht.
Qed.

(** * One iteration *)

Lemma adapt_spec dC : forall c m, length c = NC -> m < NC -> length dC = NE ->
  length (E_adaptcoef A p c dC) = NC /\ nth m (E_adaptcoef A p c dC) #0 = nth m c #0 +. Sum NE (fun b => if Nat.eqb (e b) m then nth b dC #0 else #0).
Proof.
  unfold E_adaptcoef, steps. pose proof (fun k => proj1 (est_spec k)) as Hin. revert Hin. generalize (est A p) as l. intros l Hin. revert dC Hin.
  induction l as [|k l IH]; intros [|d dC] Hin c m Lc Hm Ld; cbn in Ld; try lia.
  - cbn. split; [exact Lc|ring].
  - cbn [combine fold_left]. specialize (IH dC ltac:(intros; apply Hin; right; assumption) (upd A k (nth k c #0 +. d *. nth k (relax p) #0) c) m ltac:(rewrite upd_length; exact Lc) Hm ltac:(lia)).
    destruct IH as (L & N). split; [exact L|]. rewrite N, upd_nth by lia. cbn [length]. rewrite (Sum_head A FL). cbn [nth].
    rewrite (relax_one k (Hin k (or_introl eq_refl))). rewrite (Nat.eqb_sym k m). destruct (Nat.eqb_spec m k) as [->|]; ring.
Qed.
Lemma Sum_fold_swap n m (f : nat -> nat -> F) : Sum n (fun i => Sum m (fun j => f i j)) = Sum m (fun j => Sum n (fun i => f i j)).
Proof. apply (Sum_swap A FL). Qed.
Lemma residual_adapt c dC j s : j < NEQ p -> s < T p -> length c = NC -> length dC = NE ->
  residual A p (E_adaptcoef A p c dC) j s = residual A p c j s -. Sum NE (fun b => X j (e b) s *. nth b dC #0).
Proof.
  intros Hj Hs Lc Ld. unfold residual. rewrite !(proj1 Lin) by assumption.
  rewrite (Sum_ext A NC _ (fun k => X j k s *. nth k c #0 +. Sum NE (fun b => if Nat.eqb (e b) k then X j (e b) s *. nth b dC #0 else #0))).
  - rewrite (Sum_add A FL), (Sum_fold_swap NC NE).
    rewrite (Sum_ext A NE (fun b => Sum NC _) (fun b => X j (e b) s *. nth b dC #0)); [ring|].
    intros b Hb. rewrite (Sum_one A FL NC _ (e b)); [rewrite Nat.eqb_refl; reflexivity|apply (est_at b Hb)|].
    intros k Hk N. destruct (Nat.eqb_spec (e b) k); [congruence|reflexivity].
  - intros k Hk. destruct (adapt_spec dC c k Lc Hk Ld) as (_ & N). rewrite N.
    transitivity (X j k s *. nth k c #0 +. X j k s *. Sum NE (fun b => if Nat.eqb (e b) k then nth b dC #0 else #0)); [ring|]. f_equal.
    rewrite <- (Sum_scale A FL). apply Sum_ext. intros b Hb. destruct (Nat.eqb_spec (e b) k) as [->|]; ring.
Qed.
Lemma adapt_fixed c0 c dC : same_fixed A p c0 c -> length dC = NE -> same_fixed A p c0 (E_adaptcoef A p c dC).
Proof.
  intros (Lc & Fx) Ld. split.
  - destruct NC as [|n] eqn:E.
    + unfold E_adaptcoef, steps. assert (X0 : est A p = []) by (unfold est; rewrite E; reflexivity). rewrite X0. exact Lc.
    + rewrite <- E in * . apply (adapt_spec dC c 0); [exact Lc|lia|exact Ld].
  - intros k Hk N. destruct (adapt_spec dC c k Lc Hk Ld) as (_ & ->). rewrite (Fx k Hk N). rewrite (Sum_zero A FL); [ring|].
    intros b Hb. destruct (Nat.eqb_spec (e b) k) as [E|]; [|reflexivity]. exfalso. apply N. rewrite <- E. apply est_at. exact Hb.
Qed.
Lemma treat_lin n b f (g : nat -> nat -> F) d t : treat b (fun s => f s -. Sum n (fun a => g a s *. d a)) t = treat b f t -. Sum n (fun a => treat b (g a) t *. d a).
Proof.
  unfold treat. destruct b; [|reflexivity].
  rewrite (Sum_ext A (T p) _ (fun s => get (D p) t s *. f s +. (~. #1) *. Sum n (fun a => get (D p) t s *. (g a s *. d a)))).
  - rewrite (Sum_add A FL), (Sum_scale A FL), (Sum_fold_swap (T p) n).
    rewrite (Sum_ext A n (fun a => Sum (T p) (fun s => get (D p) t s *. g a s) *. d a) (fun j => Sum (T p) (fun i => get (D p) t i *. (g j i *. d j)))); [ring|].
    intros a Ha. transitivity (d a *. Sum (T p) (fun s => get (D p) t s *. g a s)); [ring|]. rewrite <- (Sum_scale A FL). apply Sum_ext. intros s Hs. ring.
  - intros s Hs. rewrite (Sum_scale A FL). ring.
Qed.
Definition inst : bool := Nat.leb 1 (ninstr p).
Lemma instrumented_treat f t : instrumented A p f t = treat inst f t.
Proof. reflexivity. Qed.
Lemma score_adapt W c dC k : length c = NC -> length dC = NE ->
  Sum (NEQ p) (fun i => Sum (T p) (fun t => X i k t *. treat inst (fun s => Sum (NEQ p) (fun j => W i j *. residual A p (E_adaptcoef A p c dC) j s)) t))
  = Sum (NEQ p) (fun i => Sum (T p) (fun t => X i k t *. treat inst (fun s => Sum (NEQ p) (fun j => W i j *. residual A p c j s)) t))
    -. Sum NE (fun b => Sum (NEQ p) (fun i => Sum (T p) (fun t => X i k t *. treat inst (fun s => Sum (NEQ p) (fun j => W i j *. X j (e b) s)) t)) *. nth b dC #0).
Proof.
  intros Lc Ld.
  rewrite (Sum_ext A (NEQ p) _ (fun i => Sum (T p) (fun t => X i k t *. treat inst (fun s => Sum (NEQ p) (fun j => W i j *. residual A p c j s)) t)
     +. (~. #1) *. Sum NE (fun b => Sum (T p) (fun t => X i k t *. treat inst (fun s => Sum (NEQ p) (fun j => W i j *. X j (e b) s)) t) *. nth b dC #0))).
  - rewrite (Sum_add A FL), (Sum_scale A FL), (Sum_fold_swap (NEQ p) NE).
    rewrite (Sum_ext A NE (fun b => Sum (NEQ p) _ *. nth b dC #0)
      (fun j => Sum (NEQ p) (fun i => Sum (T p) (fun t => X i k t *. treat inst (fun s => Sum (NEQ p) (fun j0 => W i j0 *. X j0 (e j) s)) t) *. nth j dC #0))); [ring|].
    intros b Hb. transitivity (nth b dC #0 *. Sum (NEQ p) (fun i => Sum (T p) (fun t => X i k t *. treat inst (fun s => Sum (NEQ p) (fun j => W i j *. X j (e b) s)) t))); [ring|].
    rewrite <- (Sum_scale A FL). apply Sum_ext. intros i Hi. ring.
  - intros i Hi.
    rewrite (Sum_ext A (T p) _ (fun t => X i k t *. treat inst (fun s => Sum (NEQ p) (fun j => W i j *. residual A p c j s)) t
       +. (~. #1) *. Sum NE (fun b => X i k t *. treat inst (fun s => Sum (NEQ p) (fun j => W i j *. X j (e b) s)) t *. nth b dC #0))).
    + rewrite (Sum_add A FL), (Sum_scale A FL), (Sum_fold_swap (T p) NE). f_equal. f_equal. apply Sum_ext. intros b Hb.
      transitivity (nth b dC #0 *. Sum (T p) (fun t => X i k t *. treat inst (fun s => Sum (NEQ p) (fun j => W i j *. X j (e b) s)) t)); [|ring].
      rewrite <- (Sum_scale A FL). apply Sum_ext. intros t Ht. ring.
    + intros t Ht.
      rewrite (treat_ext inst _ (fun s => Sum (NEQ p) (fun j => W i j *. residual A p c j s) -. Sum NE (fun b => Sum (NEQ p) (fun j => W i j *. X j (e b) s) *. nth b dC #0)) t Ht).
      * rewrite treat_lin. rewrite (Sum_ext A NE (fun b => X i k t *. treat inst _ t *. nth b dC #0)
          (fun b => X i k t *. (treat inst (fun s => Sum (NEQ p) (fun j => W i j *. X j (e b) s)) t *. nth b dC #0))) by (intros b Hb; ring).
        rewrite (Sum_scale A FL). ring.
      * intros s Hs.
        rewrite (Sum_ext A (NEQ p) _ (fun j => W i j *. residual A p c j s +. (~. #1) *. Sum NE (fun b => W i j *. X j (e b) s *. nth b dC #0))).
        -- rewrite (Sum_add A FL), (Sum_scale A FL), (Sum_fold_swap (NEQ p) NE).
           rewrite (Sum_ext A NE (fun b => Sum (NEQ p) (fun j => W i j *. X j (e b) s) *. nth b dC #0) (fun j => Sum (NEQ p) (fun i0 => W i i0 *. X i0 (e j) s *. nth j dC #0))); [ring|].
           intros b Hb. transitivity (nth b dC #0 *. Sum (NEQ p) (fun j => W i j *. X j (e b) s)); [ring|]. rewrite <- (Sum_scale A FL). apply Sum_ext. intros j Hj. ring.
        -- intros j Hj. rewrite residual_adapt by assumption.
           rewrite (Sum_ext A NE (fun b => W i j *. X j (e b) s *. nth b dC #0) (fun b => W i j *. (X j (e b) s *. nth b dC #0))) by (intros b Hb; ring).
           rewrite (Sum_scale A FL). ring.
Qed.
Definition weights (w : mat A) (i j : nat) : F := get w i j.
Lemma moments_eq w : moments A p X (weights w) = build A NE NE (fun a b =>
  Sum (NEQ p) (fun i => Sum (T p) (fun t => X i (e a) t *. treat inst (fun s => Sum (NEQ p) (fun j => get w i j *. X j (e b) s)) t))).
Proof. reflexivity. Qed.
Lemma moments_length w : length (moments A p X w) = NE.
Proof. unfold moments, build. rewrite map_length, seq_length. reflexivity. Qed.
Definition good (c0 : list F) (s : state A) : Prop := same_fixed A p c0 (coefs s) /\ no_zero_coef A p (coefs s).
Lemma get_C_good c : length c = NC -> no_zero_coef A p c -> E_get_C A p c = c.
Proof.
  intros Lc NZ. unfold E_get_C. apply list_ext; [rewrite map_length, seq_length; congruence|]. intros k Hk. rewrite map_length, seq_length in Hk.
  rewrite nth_seq_map by exact Hk. destruct (estimated A p k) eqn:E; [|reflexivity]. cbn [andb].
  rewrite (NZ k); [reflexivity|]. split; [exact Hk|apply estimated_spec; exact E].
Qed.
Lemma iteration_spec c0 s s' b : met p <> EQ_MAX_LIKELIHOOD -> ninstr p <> 1 -> regular A p X (weights (m_ivcu s)) c0 -> good c0 s ->
  iteration A p s = inl (s', b) ->
  normal A p X (weights (m_ivcu s)) (coefs s') /\ good c0 s' /\ m_ivcu s' = m_ivcu s /\ m_vcu s' = m_vcu s /\ g_ok (m_g s') /\ it s' = S (it s)
  /\ exists dC, M_solve A NE (moments A p X (weights (m_ivcu s))) (E_c_gmu A p (m_g s') (m_u s') (m_ivcu s)) = Some dC.
Proof.
  intros Nm Ni (NT & NZs) ((Lc & Fx) & NZ) H. unfold iteration in H.
  destruct (E_residuals A p (coefs s)) as [(r, u)|] eqn:Er; [|discriminate]. pose proof (residuals_spec _ _ _ Er) as Sr.
  destruct (E_jacobian A p r (coefs s)) as (c, [g|]) eqn:Ej; [|discriminate].
  destruct (E_jacobian_spec r (coefs s) c (Some g) Lc NZ ltac:(intros; apply Sr; assumption) Ej) as (-> & G). specialize (G g eq_refl).
  assert (Hw : match met p with EQ_MAX_LIKELIHOOD => match E_c_ivcu A p (E_c_vcu A p u) with Some i => Some (E_c_vcu A p u, i) | None => None end
     | _ => Some (m_vcu s, m_ivcu s) end = Some (m_vcu s, m_ivcu s)) by (destruct (met p); try reflexivity; contradiction).
  rewrite Hw in H. clear Hw. rewrite NCE_est in H.
  assert (Eg : E_c_gmg A p g (m_ivcu s) = moments A p X (weights (m_ivcu s))).
  { rewrite (gmg_spec g _ G), moments_eq. unfold inst. replace (Nat.ltb 1 (ninstr p)) with (Nat.leb 1 (ninstr p)); [reflexivity|].
    destruct (Nat.leb_spec 1 (ninstr p)), (Nat.ltb_spec 1 (ninstr p)); try reflexivity; lia. }
  rewrite Eg in H. destruct (M_solve A NE _ _) as [dC|] eqn:Es; [|discriminate]. injection H as Hs' _.
  rewrite get_C_good in Hs' by assumption. pose proof (gmu_spec g u (m_ivcu s) (residual A p (coefs s)) G ltac:(intros; apply Sr; assumption)) as Eu.
  pose proof Es as Es'. rewrite Eu in Es.
  pose proof (NT (map (fun a => Sum (NEQ p) (fun i => Sum (T p) (fun t => X i (e a) t *. treat (Nat.leb 1 (ninstr p)) (fun s0 => Sum (NEQ p) (fun j => get (m_ivcu s) i j *. residual A p (coefs s) j s0)) t))) (seq 0 NE))) as NT'.
  rewrite moments_length in NT'. pose proof (M_solve_ok A FL NE _ _ dC NT' ltac:(rewrite map_length, seq_length; reflexivity) Es) as (Ld & Sol).
  assert (Nrm : normal A p X (weights (m_ivcu s)) (E_adaptcoef A p (coefs s) dC)).
  { intros k Hk. destruct (est_find k Hk) as (a & Ha & <-).
    change (Sum (NEQ p) (fun i => Sum (T p) (fun t => X i (e a) t *. treat inst (fun s0 => Sum (NEQ p) (fun j => get (m_ivcu s) i j *. residual A p (E_adaptcoef A p (coefs s) dC) j s0)) t)) = #0).
    rewrite (score_adapt (get (m_ivcu s)) (coefs s) dC (e a) Lc Ld). specialize (Sol a Ha). rewrite nth_seq_map in Sol by exact Ha. fold inst in Sol. rewrite <- Sol.
    unfold row_times. rewrite moments_eq. rewrite (Sum_ext A NE (fun k => get (build A NE NE _) a k *. nth k dC #0)
      (fun b => Sum (NEQ p) (fun i => Sum (T p) (fun t => X i (e a) t *. treat inst (fun s0 => Sum (NEQ p) (fun j => get (m_ivcu s) i j *. X j (e b) s0)) t)) *. nth b dC #0)).
    - ring.
    - intros b0 Hb. rewrite get_build by assumption. reflexivity. }
  pose proof (adapt_fixed c0 (coefs s) dC (conj Lc Fx) Ld) as Sf.
  subst s'. cbn [coefs m_ivcu m_vcu m_g it m_u]. split; [exact Nrm|]. split; [split; [exact Sf|apply NZs; assumption]|].
  split; [reflexivity|]. split; [reflexivity|]. split; [exact G|]. split; [reflexivity|]. exists dC. exact Es'.
Qed.
Lemma iterations_spec c0 : met p <> EQ_MAX_LIKELIHOOD -> ninstr p <> 1 -> forall fuel s s' b, regular A p X (weights (m_ivcu s)) c0 -> good c0 s ->
  iterations A p fuel s = inl (s', b) ->
  m_ivcu s' = m_ivcu s /\ m_vcu s' = m_vcu s /\ good c0 s' /\ (b = false -> it s' = it s + fuel) /\ it s <= it s' <= it s + fuel
  /\ (it s' <> it s -> normal A p X (weights (m_ivcu s)) (coefs s') /\ g_ok (m_g s'))
  /\ (b = true -> it s' <> it s).
Proof.
  intros Nm Ni. induction fuel as [|fuel IH]; intros s s' b Reg Gd H; cbn in H.
  - injection H as <- <-. repeat split; try reflexivity; try apply Gd; try lia; discriminate.
  - destruct (iteration A p s) as [(s1, [|])|c] eqn:E1; [| |discriminate].
    + injection H as <- <-. destruct (iteration_spec c0 s s1 true Nm Ni Reg Gd E1) as (N & G & I & V & Gk & It & _).
      repeat split; try assumption; try apply G; try apply N; try lia; try discriminate.
    + destruct (iteration_spec c0 s s1 false Nm Ni Reg Gd E1) as (N & G & I & V & Gk & It & _).
      rewrite <- I in Reg. destruct (IH s1 s' b Reg G H) as (I' & V' & G' & F' & L' & N' & B'). rewrite I in * .
      split; [congruence|]. split; [congruence|]. split; [exact G'|]. split; [intros Hb; rewrite (F' Hb); lia|]. split; [lia|].
      assert (Hn : normal A p X (weights (m_ivcu s)) (coefs s') /\ g_ok (m_g s')).
      { destruct (Nat.eq_dec (it s') (it s1)) as [Q|Q]; [|apply N'; exact Q].
        destruct fuel as [|fuel]; [cbn in H; injection H as <- _; split; assumption|].
        exfalso. destruct b; [apply (B' eq_refl Q)|]. specialize (F' eq_refl). lia. }
      split; [intros _; exact Hn|]. intros _. lia.
Qed.

(** * The whole estimation *)

Lemma vcu_spec c u : (forall i t, i < NEQ p -> t < T p -> get u i t = residual A p c i t) -> covariances A p c (E_c_vcu A p u).
Proof.
  intros U i j Hi Hj. unfold E_c_vcu, M_scale, M_xxprim. rewrite !get_build by assumption. rewrite (total_Sum A).
  rewrite (Sum_ext A (T p) _ (fun t => residual A p c i t *. residual A p c j t)).
  - symmetry. apply (Fdiv_def Ft).
  - intros t Ht. rewrite !U by (try assumption; lia). destruct (Nat.le_ge_cases i j) as [L|L].
    + rewrite Nat.max_r, Nat.min_l by exact L. ring.
    + rewrite Nat.max_l, Nat.min_r by exact L. ring.
Qed.
Lemma after_spec s s' : after A p s = inl s' -> coefs s' = coefs s /\ m_g s' = m_g s /\ it s' = it s /\ m_vcc s' = E_c_gmg A p (m_g s) (m_ivcu s)
  /\ covariances A p (coefs s) (m_vcu s') /\ product_one A (NEQ p) (m_vcu s') (m_ivcu s')
  /\ (forall i t, i < NEQ p -> t < T p -> get (m_rhs s') i t = rhs p i (coefs s) t /\ get (m_u s') i t = residual A p (coefs s) i t).
Proof.
  unfold after. destruct (E_residuals A p (coefs s)) as [(r, u)|] eqn:Er; [|discriminate]. pose proof (residuals_spec _ _ _ Er) as Sr.
  destruct (E_c_ivcu A p (E_c_vcu A p u)) as [iv|] eqn:Ei; [|discriminate]. intros H. injection H as <-.
  cbn [coefs m_g it m_vcc m_vcu m_ivcu m_rhs m_u]. repeat split; try apply Sr; try assumption.
  - apply vcu_spec. intros i t Hi Ht. apply Sr; assumption.
  - apply (inv_right A FL). exact Ei.
Qed.
Lemma get_C_start c : length (E_get_C A p c) = NC /\ (length c = NC -> same_fixed A p c (E_get_C A p c)) /\ no_zero_coef A p (E_get_C A p c).
Proof.
  unfold E_get_C. split; [rewrite map_length, seq_length; reflexivity|]. split.
  - intros Lc. split; [rewrite map_length, seq_length; reflexivity|]. intros k Hk N. rewrite nth_seq_map by exact Hk.
    destruct (estimated A p k) eqn:E; [|reflexivity]. exfalso. apply N. split; [exact Hk|apply estimated_spec; exact E].
  - intros k (Hk & N). rewrite nth_seq_map by exact Hk. rewrite (proj2 (estimated_spec k) N). cbn [andb].
    destruct (tiny A (nth k c #0)) eqn:Tk; [apply (ol_tenth A OL)|exact Tk].
Qed.
Lemma normal_ext W W' c : (forall i j, i < NEQ p -> j < NEQ p -> W i j = W' i j) -> normal A p X W c -> normal A p X W' c.
Proof.
  intros E H k Hk. rewrite <- (H k Hk). apply Sum_ext. intros i Hi. apply Sum_ext. intros t Ht. f_equal. rewrite !instrumented_treat.
  apply treat_ext; [exact Ht|]. intros s Hs. apply Sum_ext. intros j Hj. rewrite E by assumption. reflexivity.
Qed.
Lemma moments_ext W W' : (forall i j, i < NEQ p -> j < NEQ p -> W i j = W' i j) -> moments A p X W = moments A p X W'.
Proof.
  intros E. apply build_ext. intros a b Ha Hb. apply Sum_ext. intros i Hi. apply Sum_ext. intros t Ht. f_equal.
  apply (treat_ext inst); [exact Ht|]. intros s Hs. apply Sum_ext. intros j Hj. rewrite E by assumption. reflexivity.
Qed.
Lemma regular_ext W W' c : (forall i j, i < NEQ p -> j < NEQ p -> W i j = W' i j) -> regular A p X W c -> regular A p X W' c.
Proof.
  intros E (R1 & R2). split.
  - rewrite <- (moments_ext W W' E). exact R1.
  - intros c' Sf N. apply R2; [exact Sf|]. apply (normal_ext W'); [intros; symmetry; apply E; assumption|exact N].
Qed.
Lemma diag_weights i j : i < NEQ p -> j < NEQ p -> weights (M_diag A (NEQ p) #1) i j = identity A i j.
Proof. intros Hi Hj. unfold weights, M_diag. rewrite get_build by assumption. reflexivity. Qed.
Definition start (c : list F) : state A :=
  mkState (E_get_C A p c) (M_clear A (NEQ p) (T p)) (M_clear A (NEQ p) (T p)) (M_clear A (NCE A p) (NEQ p * T p)) (M_diag A (NEQ p) #1)
          (M_diag A (NEQ p) #1) (M_clear A (NEQ p) (NEQ p)) (M_clear A (NCE A p) (NCE A p)) 0 (#999999%Z /. #100%Z).
Lemma E_est_start c s : E_est A p c = Found s -> E_gls A p (start c) = Found s /\ NE <> 0.
Proof.
  unfold E_est. destruct (Nat.eqb_spec (NCE A p) 0) as [|N]; [discriminate|]. destruct (Nat.ltb _ _); [discriminate|].
  intros H. split; [exact H|]. rewrite <- NCE_est. exact N.
Qed.
(** What remains after a success. *)
Definition results (s : state A) : Prop :=
  covariances A p (coefs s) (m_vcu s) /\ product_one A (NEQ p) (m_vcu s) (m_ivcu s) /\ g_ok (m_g s)
  /\ forall i t, i < NEQ p -> t < T p -> get (m_rhs s) i t = rhs p i (coefs s) t /\ get (m_u s) i t = residual A p (coefs s) i t.
Lemma single_stage c s : length c = NC -> (met p = EQ_LSQ \/ met p = EQ_INSTRUMENTAL) -> ninstr p <> 1 -> regular A p X (identity A) c -> E_est A p c = Found s ->
  same_fixed A p c (coefs s) /\ normal A p X (identity A) (coefs s) /\ results s /\ product_one A NE (E_c_gmg A p (m_g s) (m_ivcu s)) (m_vcc s).
Proof.
  intros Lc Hm Ni Reg H. apply E_est_start in H. destruct H as (H & _). unfold E_gls in H.
  assert (Nm : met p <> EQ_MAX_LIKELIHOOD) by (destruct Hm as [-> | ->]; discriminate).
  destruct (iterations A p (maxit p - it (start c)) (start c)) as [(s1, b)|] eqn:E1; [|discriminate].
  destruct (get_C_start c) as (_ & Sf & Nz). specialize (Sf Lc).
  assert (Rd : regular A p X (weights (m_ivcu (start c))) c) by (apply (regular_ext (identity A)); [intros i j Hi Hj; symmetry; apply diag_weights; assumption|exact Reg]).
  destruct (iterations_spec c Nm Ni (maxit p - it (start c)) (start c) s1 b Rd (conj Sf Nz) E1) as (I & V & (G & _) & _ & _ & N & B).
  destruct (after A p s1) as [s2|] eqn:E2; [|discriminate]. destruct (after_spec s1 s2 E2) as (C & Gg & It & Vc & Cov & Inv & RU).
  assert (K : exists v, E_c_ivcc A p (E_c_gmg A p (m_g s2) (m_ivcu s2)) = Some v /\ gls_end A p (with_vcc A (with_mcu A p s2) v) b = Found s).
  { destruct Hm as [Hm|Hm]; rewrite Hm in H; cbn [with_mcu m_g m_ivcu] in H; destruct (E_c_ivcc A p _) as [v|] eqn:Ev; try discriminate; exists v; split; try reflexivity; exact H. }
  destruct K as (v & Ev & Eg). unfold gls_end in Eg. destruct b; [|rewrite andb_false_r in Eg; discriminate].
  destruct (Nat.ltb _ _ && true)%bool; [|discriminate]. injection Eg as <-. cbn [with_vcc with_mcu coefs m_g m_ivcu m_vcc].
  destruct (N (B eq_refl)) as (Nrm & Gk). rewrite C. split; [exact G|]. split.
  - apply (normal_ext (weights (m_ivcu (start c)))); [apply diag_weights|exact Nrm].
  - split.
    + unfold results. cbn [with_vcc with_mcu coefs m_g m_ivcu m_vcu m_rhs m_u]. rewrite C, Gg. split; [exact Cov|]. split; [exact Inv|]. split; [exact Gk|exact RU].
    + unfold E_c_ivcc in Ev. rewrite NCE_est in Ev. apply (inv_right A FL). exact Ev.
Qed.
Lemma two_stages c s : length c = NC -> (met p = EQ_ZELLNER \/ met p = EQ_GLS) -> ninstr p <> 1 -> regular A p X (identity A) c ->
  (forall c1 v w, same_fixed A p c c1 -> normal A p X (identity A) c1 -> covariances A p c1 v -> product_one A (NEQ p) v w -> regular A p X (weights w) c) ->
  E_est A p c = Found s ->
  exists c1 v w, same_fixed A p c c1 /\ normal A p X (identity A) c1 /\ covariances A p c1 v /\ product_one A (NEQ p) v w
  /\ same_fixed A p c (coefs s) /\ normal A p X (weights w) (coefs s) /\ results s /\ product_one A NE (E_c_gmg A p (m_g s) w) (m_vcc s).
Proof.
  intros Lc Hm Ni Reg Reg2 H. apply E_est_start in H. destruct H as (H & _). unfold E_gls in H.
  assert (Nm : met p <> EQ_MAX_LIKELIHOOD) by (destruct Hm as [-> | ->]; discriminate).
  destruct (iterations A p (maxit p - it (start c)) (start c)) as [(s1, b1)|] eqn:E1; [|discriminate].
  destruct (get_C_start c) as (_ & Sf & Nz). specialize (Sf Lc).
  assert (Rd : regular A p X (weights (m_ivcu (start c))) c) by (apply (regular_ext (identity A)); [intros i j Hi Hj; symmetry; apply diag_weights; assumption|exact Reg]).
  destruct (iterations_spec c Nm Ni (maxit p - it (start c)) (start c) s1 b1 Rd (conj Sf Nz) E1) as (I & V & (G & GZ) & F1 & _ & N & B).
  destruct (after A p s1) as [s2|] eqn:E2; [|discriminate]. destruct (after_spec s1 s2 E2) as (C & Gg & It & Vc & Cov & Inv & RU).
  assert (K : match iterations A p (maxit p - it s2) (with_mcu A p s2) with
        | inr c => NotFound c
        | inl (s, conv) =>
          match after A p s with
          | inr c => NotFound c
          | inl s => match E_c_ivcc A p (m_vcc s) with None => NotFound (coefs s) | Some v => gls_end A p (with_vcc A s v) conv end
          end
        end = Found s) by (destruct Hm as [Hm|Hm]; rewrite Hm in H; exact H).
  clear H. destruct (iterations A p (maxit p - it s2) (with_mcu A p s2)) as [(s3, b)|] eqn:E3; [|discriminate].
  destruct (after A p s3) as [s4|] eqn:E4; [|discriminate]. destruct (E_c_ivcc A p (m_vcc s4)) as [v|] eqn:Ev; [|discriminate].
  unfold gls_end in K. destruct b; [|rewrite andb_false_r in K; discriminate]. destruct (Nat.ltb _ _ && true)%bool; [|discriminate]. injection K as <-.
  assert (B1 : b1 = true).
  { destruct b1; [reflexivity|]. specialize (F1 eq_refl). cbn [it start] in F1. rewrite Nat.sub_0_r in F1. rewrite It, F1 in E3. cbn in E3. rewrite Nat.sub_diag in E3. discriminate. }
  destruct (N (B B1)) as (Nrm & Gk). apply (normal_ext _ (identity A)) in Nrm; [|apply diag_weights].
  pose proof (Reg2 (coefs s1) (m_vcu s2) (m_ivcu s2) G Nrm Cov Inv) as Rw.
  assert (G2 : good c (with_mcu A p s2)) by (unfold good; cbn [with_mcu coefs]; rewrite C; split; assumption).
  destruct (iterations_spec c Nm Ni (maxit p - it s2) (with_mcu A p s2) s3 true Rw G2 E3) as (I3 & V3 & (G3 & GZ3) & _ & _ & N3 & B3).
  destruct (N3 (B3 eq_refl)) as (Nrm3 & Gk3). cbn [with_mcu m_ivcu] in Nrm3, I3.
  destruct (after_spec s3 s4 E4) as (C4 & Gg4 & It4 & Vc4 & Cov4 & Inv4 & RU4).
  assert (Rs : results (with_vcc A s4 v)).
  { unfold results. cbn [with_vcc coefs m_g m_ivcu m_vcu m_rhs m_u]. rewrite C4, Gg4. split; [exact Cov4|]. split; [exact Inv4|]. split; [exact Gk3|exact RU4]. }
  exists (coefs s1), (m_vcu s2), (m_ivcu s2). split; [exact G|]. split; [exact Nrm|]. split; [exact Cov|]. split; [exact Inv|].
  cbn [with_vcc coefs m_g m_vcc]. rewrite C4. split; [exact G3|]. split; [exact Nrm3|]. split; [exact Rs|].
  unfold E_c_ivcc in Ev. rewrite NCE_est in Ev. apply (inv_right A FL) in Ev. rewrite Vc4, I3 in Ev. rewrite Gg4. exact Ev.
Qed.

(** * Least squares *)

Lemma residual_diff c c' i t : i < NEQ p -> t < T p -> residual A p c' i t = residual A p c i t -. Sum NC (fun k => X i k t *. (nth k c' #0 -. nth k c #0)).
Proof.
  intros Hi Ht. unfold residual. rewrite !(proj1 Lin) by assumption.
  rewrite (Sum_ext A NC (fun k => X i k t *. (nth k c' #0 -. nth k c #0)) (fun k => X i k t *. nth k c' #0 +. (~. #1) *. (X i k t *. nth k c #0))) by (intros k Hk; ring).
  rewrite (Sum_add A FL), (Sum_scale A FL). ring.
Qed.
Definition fitted (d : nat -> F) (i t : nat) : F := Sum NC (fun k => X i k t *. d k).
Lemma score_zero c d : ninstr p = 0 -> normal A p X (identity A) c -> (forall k, k < NC -> ~ is_estimated A p k -> d k = #0) ->
  Sum (NEQ p) (fun i => Sum (T p) (fun t => residual A p c i t *. fitted d i t)) = #0.
Proof.
  intros Ni N Dk.
  rewrite (Sum_ext A (NEQ p) _ (fun i => Sum NC (fun k => d k *. Sum (T p) (fun t => X i k t *. residual A p c i t)))).
  - rewrite (Sum_fold_swap (NEQ p) NC). apply (Sum_zero A FL). intros k Hk.
    rewrite (Sum_scale A FL). destruct (estimated A p k) eqn:E.
    + assert (Ek : is_estimated A p k) by (split; [exact Hk|apply estimated_spec; exact E]). specialize (N k Ek).
      rewrite (Sum_ext A (NEQ p) (fun i => Sum (T p) (fun t => X i k t *. residual A p c i t))
        (fun i => Sum (T p) (fun t => X i k t *. instrumented A p (fun s => Sum (NEQ p) (fun j => identity A i j *. residual A p c j s)) t))).
      * rewrite N. ring.
      * intros i Hi. apply Sum_ext. intros t Ht. f_equal. unfold instrumented. rewrite Ni. cbn [Nat.ltb Nat.leb].
        rewrite (Sum_one A FL (NEQ p) _ i Hi); [unfold identity; rewrite Nat.eqb_refl; ring|].
        intros j Hj Nj. unfold identity. destruct (Nat.eqb_spec i j); [congruence|ring].
    + rewrite (Dk k Hk); [ring|]. intros Ek. rewrite (proj2 (estimated_spec k) (proj2 Ek)) in E. discriminate.
  - intros i Hi. rewrite (Sum_ext A (T p) _ (fun t => Sum NC (fun k => residual A p c i t *. (X i k t *. d k)))) by (intros t Ht; rewrite (Sum_scale A FL); reflexivity).
    rewrite (Sum_fold_swap (T p) NC). apply Sum_ext. intros k Hk. rewrite <- (Sum_scale A FL). apply Sum_ext. intros t Ht. ring.
Qed.
Lemma squares_diff c c' : ninstr p = 0 -> normal A p X (identity A) c -> same_fixed A p c c' ->
  squares A p c' = squares A p c +. Sum (NEQ p) (fun i => Sum (T p) (fun t => fitted (fun k => nth k c' #0 -. nth k c #0) i t *. fitted (fun k => nth k c' #0 -. nth k c #0) i t)).
Proof.
  intros Ni N (L & Sf). set (d := fun k => nth k c' #0 -. nth k c #0).
  pose proof (score_zero c d Ni N ltac:(intros k Hk E; unfold d; rewrite (Sf k Hk E); ring)) as Z.
  unfold squares.
  rewrite (Sum_ext A (NEQ p) (fun i => Sum (T p) (fun t => residual A p c' i t *. residual A p c' i t))
    (fun i => Sum (T p) (fun t => residual A p c i t *. residual A p c i t) +. (Sum (T p) (fun t => fitted d i t *. fitted d i t) +. ~. (#1 +. #1) *. Sum (T p) (fun t => residual A p c i t *. fitted d i t)))).
  - rewrite !(Sum_add A FL), (Sum_scale A FL), Z. ring.
  - intros i Hi. rewrite <- (Sum_scale A FL), <- !(Sum_add A FL). apply Sum_ext. intros t Ht. rewrite (residual_diff c c' i t Hi Ht). change (Sum NC (fun k => X i k t *. (nth k c' #0 -. nth k c #0))) with (fitted d i t). ring.
Qed.
Lemma nonneg_squares n m (f : nat -> nat -> F) : lt A (Sum n (fun i => Sum m (fun t => f i t *. f i t))) #0 = false.
Proof. apply nonneg_sum. intros i _. apply nonneg_sum. intros t _. apply (ol_square A OL). Qed.
Lemma least c c' : ninstr p = 0 -> normal A p X (identity A) c -> same_fixed A p c c' -> lt A (squares A p c') (squares A p c) = false.
Proof.
  intros Ni N Sf. rewrite (ol_sub A OL), (squares_diff c c' Ni N Sf).
  match goal with |- lt A (?a +. ?b -. ?a) _ = _ => replace (a +. b -. a) with b by ring end. apply nonneg_squares.
Qed.
Lemma add_zero x y : lt A x #0 = false -> lt A y #0 = false -> x +. y = #0 -> x = #0 /\ y = #0.
Proof.
  intros Hx Hy E. assert (Ex : x = ~. y) by (transitivity (x +. y -. y); [ring|rewrite E; ring]).
  assert (y = #0) by (apply (ol_anti A OL); [exact Hy|rewrite <- Ex; exact Hx]). subst y. split; [rewrite Ex; ring|reflexivity].
Qed.
Lemma sum_nonneg_zero n f : (forall k, k < n -> lt A (f k) #0 = false) -> Sum n f = #0 -> forall k, k < n -> f k = #0.
Proof.
  induction n as [|n IH]; intros H E k Hk; [lia|]. cbn in E. apply add_zero in E; [|apply nonneg_sum; intros; apply H; lia|apply H; lia].
  destruct E as (E1 & E2). destruct (Nat.eq_dec k n) as [->|]; [exact E2|]. apply IH; [intros; apply H; lia|exact E1|lia].
Qed.
Lemma mul_zero x y : x *. y = #0 -> x = #0 \/ y = #0.
Proof.
  intros E. destruct (eq A x #0) eqn:Q; [left; apply (fl_eq A FL); exact Q|right].
  assert (N : x <> #0) by (intros K; rewrite (proj2 (fl_eq A FL _ _) K) in Q; discriminate).
  transitivity (#1 /. x *. (x *. y)); [field; exact N|]. rewrite E. field. exact N.
Qed.
Lemma squares_zero n m (f : nat -> nat -> F) : Sum n (fun i => Sum m (fun t => f i t *. f i t)) = #0 -> forall i t, i < n -> t < m -> f i t = #0.
Proof.
  intros E i t Hi Ht. pose proof (sum_nonneg_zero n _ ltac:(intros j _; apply nonneg_sum; intros; apply (ol_square A OL)) E i Hi) as E1. cbn beta in E1.
  pose proof (sum_nonneg_zero m _ ltac:(intros j _; apply (ol_square A OL)) E1 t Ht) as E2. cbn beta in E2. destruct (mul_zero _ _ E2); assumption.
Qed.
Lemma unique c c' : ninstr p = 0 -> independent A p X -> normal A p X (identity A) c -> same_fixed A p c c' -> length c = NC ->
  squares A p c' = squares A p c -> c' = c.
Proof.
  intros Ni Ind N Sf Lc E. rewrite (squares_diff c c' Ni N Sf) in E. destruct Sf as (L & Sf).
  set (d := fun k => nth k c' #0 -. nth k c #0) in * .
  assert (Z : Sum (NEQ p) (fun i => Sum (T p) (fun t => fitted d i t *. fitted d i t)) = #0).
  { set (q := Sum (NEQ p) _) in * . clearbody q. transitivity (squares A p c +. q -. squares A p c); [ring|]. rewrite E. ring. }
  pose proof (squares_zero _ _ _ Z) as Zf.
  apply list_ext; [congruence|]. intros k Hk. destruct (eq A (d k) #0) eqn:Q.
  - apply (fl_eq A FL) in Q. transitivity (d k +. nth k c #0); [unfold d; ring|]. rewrite Q. ring.
  - exfalso. assert (Nd : d k <> #0) by (intros K; rewrite (proj2 (fl_eq A FL _ _) K) in Q; discriminate).
    assert (Ek : is_estimated A p k).
    { split; [lia|]. intros R. apply Nd. unfold d. rewrite (Sf k ltac:(lia)); [ring|]. intros (_ & K). contradiction. }
    destruct (Ind d) as (i & t & Hi & Ht & K); [exists k; split; assumption|]. apply K. transitivity (fitted d i t); [|exact (Zf i t Hi Ht)]. unfold fitted. apply Sum_ext. intros j Hj.
    destruct (eq A (nth j (relax p) #0) #0) eqn:Ej; [|reflexivity]. apply (fl_eq A FL) in Ej. unfold d. rewrite (Sf j Hj); [ring|]. intros (_ & K'). contradiction.
Qed.

(** * Convergence for one equation *)

Lemma est_nodup : NoDup (est A p).
Proof. unfold est. apply NoDup_filter. apply seq_NoDup. Qed.
Lemma definite W om m : NEQ p = 1 -> ninstr p = 0 -> independent A p X -> om <> #0 -> W 0 0 = om -> m <= NE -> ~ singular A m (moments A p X W).
Proof.
  intros N1 Ni Ind No Wo Hm (x & Lx & Zx & a0 & Ha0 & Nx).
  set (v := fun t => Sum m (fun a => X 0 (e a) t *. nth a x #0)).
  assert (G : forall a b, a < NE -> b < NE -> get (moments A p X W) a b = om *. Sum (T p) (fun t => X 0 (e a) t *. X 0 (e b) t)).
  { intros a b Ha Hb. unfold moments. fold (est A p). rewrite get_build by assumption. rewrite N1. cbn [S_Matrix.Sum].
    rewrite (Sum_ext A (T p) _ (fun t => om *. (X 0 (e a) t *. X 0 (e b) t))); [rewrite (Sum_scale A FL); ring|].
    intros t Ht. unfold instrumented. rewrite Ni. cbn [Nat.ltb Nat.leb]. rewrite Wo. unfold est, estimated. ring. }
  assert (Q : Sum (T p) (fun t => v t *. v t) = #0).
  { assert (R : forall a, a < m -> Sum (T p) (fun t => X 0 (e a) t *. v t) = #0).
    { intros a Ha. specialize (Zx a Ha). unfold row_times in Zx.
      rewrite (Sum_ext A m _ (fun b => om *. Sum (T p) (fun t => X 0 (e a) t *. X 0 (e b) t *. nth b x #0))) in Zx.
      - rewrite (Sum_scale A FL) in Zx. destruct (mul_zero _ _ Zx) as [K|K]; [contradiction|]. rewrite (Sum_fold_swap m (T p)) in K. etransitivity; [|exact K]. apply Sum_ext.
        intros t Ht. unfold v. rewrite <- (Sum_scale A FL). apply Sum_ext. intros b Hb. ring.
      - intros b Hb. rewrite G by lia. transitivity (om *. (nth b x #0 *. Sum (T p) (fun t => X 0 (e a) t *. X 0 (e b) t))); [ring|].
        rewrite <- (Sum_scale A FL). f_equal. apply Sum_ext. intros t Ht. ring. }
    rewrite (Sum_ext A (T p) _ (fun t => Sum m (fun a => nth a x #0 *. (X 0 (e a) t *. v t)))).
    - rewrite (Sum_fold_swap (T p) m). apply (Sum_zero A FL). intros a Ha. rewrite (Sum_scale A FL), (R a Ha). ring.
    - intros t Ht. unfold v at 1. transitivity (v t *. Sum m (fun a => X 0 (e a) t *. nth a x #0)); [ring|]. rewrite <- (Sum_scale A FL). apply Sum_ext. intros a Ha. ring. }
  pose proof (sum_nonneg_zero (T p) _ ltac:(intros; apply (ol_square A OL)) Q) as Zv.
  set (d := fun k => Sum m (fun a => if Nat.eqb (e a) k then nth a x #0 else #0)).
  assert (Dd : d (e a0) = nth a0 x #0).
  { unfold d. rewrite (Sum_one A FL m _ a0 Ha0); [rewrite Nat.eqb_refl; reflexivity|]. intros a Ha Na. destruct (Nat.eqb_spec (e a) (e a0)) as [E|]; [|reflexivity].
    exfalso. apply Na. apply (proj1 (NoDup_nth (est A p) 0) est_nodup); [lia|lia|exact E]. }
  destruct (Ind d) as (i & t & Hi & Ht & K); [exists (e a0); split; [apply est_at; lia|rewrite Dd; exact Nx]|]. apply K. replace i with 0 by lia.
  assert (Vt : v t = #0) by (destruct (mul_zero _ _ (Zv t Ht)); assumption). transitivity (v t); [|exact Vt]. unfold v.
  rewrite (Sum_ext A NC _ (fun k => Sum m (fun a => if Nat.eqb (e a) k then X 0 (e a) t *. nth a x #0 else #0))).
  - rewrite (Sum_fold_swap NC m). apply Sum_ext. intros a Ha. rewrite (Sum_one A FL NC _ (e a)); [rewrite Nat.eqb_refl; reflexivity|apply (est_at a ltac:(lia))|].
    intros k Hk Nk. destruct (Nat.eqb_spec (e a) k); [congruence|reflexivity].
  - intros k Hk. destruct (eq A (nth k (relax p) #0) #0) eqn:Ek.
    + apply (fl_eq A FL) in Ek. symmetry. apply (Sum_zero A FL). intros a Ha. destruct (Nat.eqb_spec (e a) k) as [E|]; [|reflexivity].
      exfalso. apply (proj2 (est_at a ltac:(lia))). rewrite E. exact Ek.
    + unfold d. rewrite <- (Sum_scale A FL). apply Sum_ext. intros a Ha. destruct (Nat.eqb_spec (e a) k) as [->|]; ring.
Qed.
Lemma mod_total r k c : calculable A p c -> is_estimated A p k -> exists row, E_mod_residuals A p r k (upd A k (nth k c #0 *. (#1 +. step_h A)) c) (nth k c #0 *. step_h A) = Some row.
Proof.
  intros Ca Ek. unfold E_mod_residuals.
  match goal with |- context [if ?b then _ else _] => assert (Hb : b = true) end.
  - apply forallb_forall. intros n Hn. apply in_seq in Hn.
    assert (T0 : T p <> 0) by nia. pose proof (Nat.div_mod n (T p) T0). pose proof (Nat.mod_upper_bound n (T p) T0).
    assert (Hi : Nat.div n (T p) < NEQ p) by (apply Nat.div_lt_upper_bound; nia).
    destruct (Ca (Nat.div n (T p)) (Nat.modulo n (T p)) Hi ltac:(assumption)) as (_ & K). destruct (K k Ek) as (K1 & K2). cbv zeta in K1, K2. rewrite K2, K1. apply orb_true_r.
  - rewrite Hb. eexists. reflexivity.
Qed.
Lemma jacobian_total r c : no_zero_coef A p c -> calculable A p c -> forall ks rows, (forall k, In k ks -> k < NC) -> exists g, jacobian A p r ks c rows = (c, Some g).
Proof.
  intros NZ Ca. induction ks as [|k ks IH]; intros rows Hk; cbn; [eexists; reflexivity|]. destruct (estimated A p k) eqn:Ek.
  - assert (Q : is_estimated A p k) by (split; [apply Hk; left; reflexivity|apply estimated_spec; exact Ek]).
    rewrite (NZ k Q), upd_same. destruct (mod_total r k c Ca Q) as (row & ->). apply IH. intros; apply Hk; right; assumption.
  - apply IH. intros; apply Hk; right; assumption.
Qed.
Lemma residuals_total c : calculable A p c -> exists r u, E_residuals A p c = Some (r, u).
Proof.
  intros Ca. unfold E_residuals, E_c_rhs. match goal with |- context [if ?b then _ else _] => assert (Hb : b = true) end.
  - apply forallb_forall. intros row Hr. unfold build in Hr. apply in_map_iff in Hr. destruct Hr as (i & <- & Hi). apply in_seq in Hi.
    apply forallb_forall. intros x Hx. apply in_map_iff in Hx. destruct Hx as (t & <- & Ht). apply in_seq in Ht. apply Ca; lia.
  - rewrite Hb. eexists. eexists. reflexivity.
Qed.
Lemma iteration_total c0 s : met p = EQ_LSQ -> NEQ p = 1 -> ninstr p = 0 -> independent A p X -> NE <> 0 -> weights (m_ivcu s) 0 0 = #1 ->
  regular A p X (weights (m_ivcu s)) c0 -> good c0 s -> calculable A p (coefs s) ->
  exists s' b, iteration A p s = inl (s', b).
Proof.
  intros Hm N1 Ni Ind N0 W1 (NT & _) ((Lc & Fx) & NZ) Ca. unfold iteration.
  destruct (residuals_total _ Ca) as (r & u & Er). rewrite Er. pose proof (residuals_spec _ _ _ Er) as Sr.
  destruct (jacobian_total r (coefs s) NZ Ca (seq 0 NC) [] ltac:(intros k K; apply in_seq in K; lia)) as (g & Ej).
  unfold E_jacobian. rewrite Ej. destruct (E_jacobian_spec r (coefs s) (coefs s) (Some g) Lc NZ ltac:(intros; apply Sr; assumption) Ej) as (_ & G). specialize (G g eq_refl).
  rewrite Hm, NCE_est.
  assert (Eg : E_c_gmg A p g (m_ivcu s) = moments A p X (weights (m_ivcu s))) by (rewrite (gmg_spec g _ G), moments_eq; unfold inst; rewrite Ni; reflexivity).
  rewrite Eg. destruct (M_solve A NE _ _) as [dC|] eqn:Es; [eexists; eexists; reflexivity|exfalso].
  specialize (NT (E_c_gmu A p g u (m_ivcu s))). rewrite moments_length in NT.
  apply (M_solve_none A FL NE _ _ N0 NT) in Es; [|unfold E_c_gmu; rewrite map_length, seq_length; apply NCE_est].
  exact (definite (weights (m_ivcu s)) #1 NE N1 Ni Ind (one_zero A FL) W1 (Nat.le_refl _) Es).
Qed.
(** At the solution, the iteration does not move. *)
Lemma iteration_fixed c0 s s' b : met p = EQ_LSQ -> ninstr p = 0 -> lt A (eps p) #0 = false ->
  regular A p X (weights (m_ivcu s)) c0 -> good c0 s -> normal A p X (weights (m_ivcu s)) (coefs s) ->
  iteration A p s = inl (s', b) -> b = true.
Proof.
  intros Hm Ni He (NT & NZs) ((Lc & Fx) & NZ) Nrm H. unfold iteration in H.
  destruct (E_residuals A p (coefs s)) as [(r, u)|] eqn:Er; [|discriminate]. pose proof (residuals_spec _ _ _ Er) as Sr.
  destruct (E_jacobian A p r (coefs s)) as (c, [g|]) eqn:Ej; [|discriminate].
  destruct (E_jacobian_spec r (coefs s) c (Some g) Lc NZ ltac:(intros; apply Sr; assumption) Ej) as (-> & G). specialize (G g eq_refl).
  rewrite Hm, NCE_est in H.
  assert (Eg : E_c_gmg A p g (m_ivcu s) = moments A p X (weights (m_ivcu s))) by (rewrite (gmg_spec g _ G), moments_eq; unfold inst; rewrite Ni; reflexivity).
  rewrite Eg in H. destruct (M_solve A NE _ _) as [dC|] eqn:Es; [|discriminate]. injection H as _ Hb.
  rewrite get_C_good in Hb by assumption.
  assert (Eu : E_c_gmu A p g u (m_ivcu s) = map (fun _ => #0) (seq 0 NE)).
  { rewrite (gmu_spec g u (m_ivcu s) (residual A p (coefs s)) G ltac:(intros; apply Sr; assumption)). apply map_ext_in. intros a Ha. apply in_seq in Ha.
    exact (Nrm (e a) (est_at a ltac:(lia))). }
  rewrite Eu in Es. specialize (NT (map (fun _ => #0) (seq 0 NE))). rewrite moments_length in NT.
  destruct (M_solve_ok A FL NE _ _ dC NT ltac:(rewrite map_length, seq_length; reflexivity) Es) as (Ld & Sol).
  pose proof (M_solve_some A FL NE _ _ dC NT Es) as Nsg.
  assert (D0 : forall a, a < NE -> nth a dC #0 = #0).
  { intros a Ha. destruct (eq A (nth a dC #0) #0) eqn:Q; [apply (fl_eq A FL); exact Q|]. exfalso. apply Nsg. exists dC. split; [exact Ld|]. split.
    - intros i Hi. rewrite (Sol i Hi). rewrite nth_seq_map by exact Hi. reflexivity.
    - exists a. split; [exact Ha|]. intros K. rewrite (proj2 (fl_eq A FL _ _) K) in Q. discriminate. }
  assert (Tz : E_testcv A p (coefs s) dC = #0).
  { unfold E_testcv. assert (Fz : forall l z, (forall k d, In (k, d) l -> is_estimated A p k /\ d = #0) ->
      fold_left (fun sum '(k, d) => let ci := nth k (coefs s) #0 in if eq A ci #0 then sum else let tmp := abs A (d /. ci) in
         if lt A tmp (abs A ci) then sum +. tmp *. tmp else sum +. ci *. ci) l z = z).
    { induction l as [|(k, d) l IH]; intros z Hl; [reflexivity|]. cbn [fold_left]. destruct (Hl k d (or_introl eq_refl)) as (Ek & ->).
      rewrite IH by (intros; apply Hl; right; assumption). cbv zeta. destruct (eq A (nth k (coefs s) #0) #0) eqn:Q; [reflexivity|].
      assert (Nc : nth k (coefs s) #0 <> #0) by (apply tiny_nonzero; apply NZ; exact Ek).
      assert (Z0 : #0 /. nth k (coefs s) #0 = #0) by (field; exact Nc). rewrite Z0, (ol_abs A OL).
      assert (Lt : lt A #0 (abs A (nth k (coefs s) #0)) = true) by (apply (ol_pos A OL); exact Nc).
      rewrite Lt. ring. }
    rewrite Fz; [apply (ol_sqrt A OL)|]. intros k d Hin. unfold steps in Hin.
    apply (In_nth _ _ (0, #0)) in Hin. destruct Hin as (a & Ha & E). rewrite combine_length in Ha. rewrite combine_nth in E by (symmetry; exact Ld). injection E as <- <-.
    split; [apply est_at; lia|apply D0; lia]. }
  rewrite Tz in Hb. rewrite <- Hb. rewrite (ol_sub A OL).
  destruct (lt A (#0 -. eps p) #0) eqn:Q; [reflexivity|]. cbn [orb]. apply (fl_eq A FL). symmetry. apply (ol_anti A OL); [exact He|].
  replace (~. eps p) with (#0 -. eps p) by ring. exact Q.
Qed.
Lemma loop_total c : length c = NC -> met p = EQ_LSQ -> NEQ p = 1 -> ninstr p = 0 -> independent A p X -> NE <> 0 -> 2 <= maxit p -> lt A (eps p) #0 = false ->
  regular A p X (identity A) c -> calculable A p (E_get_C A p c) ->
  (forall c', same_fixed A p c c' -> normal A p X (identity A) c' -> calculable A p c') ->
  exists s, iterations A p (maxit p - it (start c)) (start c) = inl (s, true) /\ it s <= 2.
Proof.
  intros Lc Hm N1 Ni Ind N0 M2 He Reg Ca0 Ca. cbn [it start]. rewrite Nat.sub_0_r.
  destruct (get_C_start c) as (_ & Sf & Nz). specialize (Sf Lc). assert (Nm : met p <> EQ_MAX_LIKELIHOOD) by (rewrite Hm; discriminate). assert (Ni1 : ninstr p <> 1) by lia.
  assert (Rd : regular A p X (weights (m_ivcu (start c))) c) by (apply (regular_ext (identity A)); [intros i j Hi Hj; symmetry; apply diag_weights; assumption|exact Reg]).
  assert (W1 : weights (m_ivcu (start c)) 0 0 = #1) by (rewrite diag_weights by lia; reflexivity).
  assert (Gs : good c (start c)) by (split; assumption).
  destruct (maxit p) as [|[|fuel]] eqn:Em; [lia|lia|].
  destruct (iteration_total c (start c) Hm N1 Ni Ind N0 W1 Rd Gs Ca0) as (s1 & b1 & E1).
  destruct (iteration_spec c (start c) s1 b1 Nm Ni1 Rd Gs E1) as (Nr1 & G1 & I1 & _ & _ & It1 & _). cbn [it start] in It1.
  cbn [iterations]. rewrite E1. destruct b1; [exists s1; split; [reflexivity|lia]|].
  assert (Ca1 : calculable A p (coefs s1)) by (apply Ca; [apply G1|apply (normal_ext (weights (m_ivcu (start c)))); [apply diag_weights|exact Nr1]]).
  rewrite <- I1 in W1, Rd, Nr1.
  destruct (iteration_total c s1 Hm N1 Ni Ind N0 W1 Rd G1 Ca1) as (s2 & b2 & E2).
  rewrite (iteration_fixed c s1 s2 b2 Hm Ni He Rd G1 Nr1 E2) in E2. rewrite E2.
  destruct (iteration_spec c s1 s2 true Nm Ni1 Rd G1 E2) as (_ & _ & _ & _ & _ & It2 & _). exists s2. split; [reflexivity|lia].
Qed.
Lemma one_equation_found c : length c = NC -> met p = EQ_LSQ -> NEQ p = 1 -> ninstr p = 0 -> independent A p X -> NE <> 0 -> 3 <= maxit p -> lt A (eps p) #0 = false ->
  regular A p X (identity A) c -> calculable A p (E_get_C A p c) ->
  (forall c', same_fixed A p c c' -> normal A p X (identity A) c' -> calculable A p c' /\ squares A p c' <> #0) ->
  exists s, E_est A p c = Found s /\ it s <= 2.
Proof.
  intros Lc Hm N1 Ni Ind N0 M3 He Reg Ca0 Ca. assert (Nm : met p <> EQ_MAX_LIKELIHOOD) by (rewrite Hm; discriminate). assert (Ni1 : ninstr p <> 1) by lia.
  destruct (loop_total c Lc Hm N1 Ni Ind N0 ltac:(lia) He Reg Ca0 ltac:(intros; apply Ca; assumption)) as (s1 & E1 & It1).
  destruct (get_C_start c) as (_ & Sf & Nz). specialize (Sf Lc).
  assert (Rd : regular A p X (weights (m_ivcu (start c))) c) by (apply (regular_ext (identity A)); [intros i j Hi Hj; symmetry; apply diag_weights; assumption|exact Reg]).
  destruct (iterations_spec c Nm Ni1 (maxit p - it (start c)) (start c) s1 true Rd (conj Sf Nz) E1) as (I & V & (G & GZ) & _ & _ & N & B).
  destruct (N (B eq_refl)) as (Nrm & Gk). apply (normal_ext _ (identity A)) in Nrm; [|apply diag_weights].
  destruct (Ca (coefs s1) G Nrm) as (Cs & Sq). destruct (residuals_total _ Cs) as (r & u & Er).
  assert (E2 : exists s2, after A p s1 = inl s2).
  { unfold after. rewrite Er. destruct (E_c_ivcu A p (E_c_vcu A p u)) as [iv|] eqn:Ei; [eexists; reflexivity|exfalso].
    unfold E_c_ivcu in Ei. rewrite N1 in Ei. apply (inv_none A FL) in Ei. destruct Ei as (m & Hm1 & x & Lx & Zx & k & Hk & Nk).
    assert (Em : m = 1) by lia. rewrite Em in Lx, Zx, Hk. assert (k = 0) by lia. subst k. specialize (Zx 0 ltac:(lia)). unfold row_times in Zx. cbn [S_Matrix.Sum] in Zx.
    pose proof (vcu_spec (coefs s1) u ltac:(intros; apply (residuals_spec _ _ _ Er); assumption) 0 0 ltac:(lia) ltac:(lia)) as Vc. apply Sq. unfold squares. rewrite N1. cbn [S_Matrix.Sum].
    set (q := Sum (T p) _) in * . set (v := get (E_c_vcu A p u) 0 0) in * . assert (Zv : v *. nth 0 x #0 = #0) by (etransitivity; [|exact Zx]; ring).
    destruct (mul_zero _ _ Zv) as [K|K]; [|contradiction]. rewrite K in Vc.
    destruct (Z.eq_dec (Z.of_nat (T p)) 0%Z) as [T0|T0].
    - unfold q. replace (T p) with 0 by lia. cbn [S_Matrix.Sum]. ring.
    - assert (Nt : #(Z.of_nat (T p)) <> #0) by (intros Q; apply T0; apply (ol_ofZ A OL); exact Q).
      transitivity (#(Z.of_nat (T p)) *. (q /. #(Z.of_nat (T p)))); [field; exact Nt|]. rewrite <- Vc. ring. }
  destruct E2 as (s2 & E2). destruct (after_spec s1 s2 E2) as (C & Gg & It & Vcc & Cov & Inv & RU).
  assert (E3 : exists v, E_c_ivcc A p (E_c_gmg A p (m_g s2) (m_ivcu s2)) = Some v).
  { destruct (E_c_ivcc A p _) as [v|] eqn:Ev; [exists v; reflexivity|exfalso]. unfold E_c_ivcc in Ev. rewrite NCE_est in Ev. apply (inv_none A FL) in Ev.
    destruct Ev as (m & Hm1 & Sg). rewrite Gg in Sg.
    assert (Eg : E_c_gmg A p (m_g s1) (m_ivcu s2) = moments A p X (weights (m_ivcu s2))) by (rewrite (gmg_spec (m_g s1) _ Gk), moments_eq; unfold inst; rewrite Ni; reflexivity).
    rewrite Eg in Sg. revert Sg. apply (definite (weights (m_ivcu s2)) (get (m_ivcu s2) 0 0)); try assumption; try reflexivity; try lia.
    intros K. specialize (Inv 0 0 ltac:(lia) ltac:(lia)). rewrite N1 in Inv. cbn [S_Matrix.Sum Nat.eqb] in Inv. rewrite K in Inv. apply (one_zero A FL). etransitivity; [symmetry; exact Inv|]. ring. }
  destruct E3 as (v & E3). exists (with_vcc A (with_mcu A p s2) v). split; [|cbn [with_vcc with_mcu it]; lia].
  unfold E_est. destruct (Nat.eqb_spec (NCE A p) 0) as [K|_]; [rewrite NCE_est in K; contradiction|].
  destruct (Nat.ltb_spec (NCE A p) (length (est A p))) as [K|_]; [rewrite NCE_est in K; lia|]. fold (start c). unfold E_gls. rewrite E1, E2, Hm.
  cbv zeta. cbn [with_mcu m_g m_ivcu]. rewrite E3. unfold gls_end. cbn [with_vcc with_mcu it]. destruct (Nat.ltb_spec (it s2) (maxit p)) as [_|K]; [reflexivity|lia].
Qed.

(** * The covariances of the coefficients of one equation *)

Lemma moments_one W a b : NEQ p = 1 -> ninstr p = 0 -> a < NE -> b < NE -> get (moments A p X W) a b = W 0 0 *. Sum (T p) (fun t => X 0 (e a) t *. X 0 (e b) t).
Proof.
  intros N1 Ni Ha Hb. unfold moments. fold (est A p). rewrite get_build by assumption. rewrite N1. cbn [S_Matrix.Sum].
  rewrite (Sum_ext A (T p) _ (fun t => W 0 0 *. (X 0 (e a) t *. X 0 (e b) t))); [rewrite (Sum_scale A FL); ring|].
  intros t Ht. unfold instrumented. rewrite Ni. cbn [Nat.ltb Nat.leb]. unfold est, estimated. ring.
Qed.
Lemma vcc_spec c s m : length c = NC -> met p = EQ_LSQ -> NEQ p = 1 -> ninstr p = 0 -> regular A p X (identity A) c -> E_est A p c = Found s ->
  product_one A NE (moments A p X (identity A)) m -> forall a, a < NE -> get (m_vcc s) a a = get (m_vcu s) 0 0 *. get m a a.
Proof.
  intros Lc Hm N1 Ni Reg H Pm a Ha. destruct (single_stage c s Lc (or_introl Hm) ltac:(lia) Reg H) as (_ & _ & (Cov & Inv & Gk & _) & Pv).
  assert (Eg : E_c_gmg A p (m_g s) (m_ivcu s) = moments A p X (weights (m_ivcu s))) by (rewrite (gmg_spec (m_g s) _ Gk), moments_eq; unfold inst; rewrite Ni; reflexivity).
  rewrite Eg in Pv. clear Eg. set (om := get (m_ivcu s) 0 0). set (v := get (m_vcu s) 0 0).
  assert (Ov : v *. om = #1). { specialize (Inv 0 0 ltac:(lia) ltac:(lia)). rewrite N1 in Inv. cbn [S_Matrix.Sum Nat.eqb] in Inv. rewrite <- Inv. unfold v, om. ring. }
  set (S0 := fun a b => Sum (T p) (fun t => X 0 (e a) t *. X 0 (e b) t)).
  assert (Gw : forall k l, k < NE -> l < NE -> get (moments A p X (weights (m_ivcu s))) k l = om *. S0 k l) by (intros k l Hk Hl; rewrite moments_one by assumption; reflexivity).
  assert (Gi : forall k l, k < NE -> l < NE -> get (moments A p X (identity A)) k l = S0 k l) by (intros k l Hk Hl; rewrite moments_one by assumption; unfold identity; cbn [Nat.eqb]; fold (S0 k l); ring).
  assert (Sy : forall k l, S0 k l = S0 l k) by (intros k l; apply Sum_ext; intros; ring).
  transitivity (Sum NE (fun k => get (m_vcc s) k a *. (v *. om *. Sum NE (fun l => S0 k l *. get m l a)))).
  - rewrite (Sum_one A FL NE _ a Ha).
    + rewrite (Sum_ext A NE _ (fun l => get (moments A p X (identity A)) a l *. get m l a)) by (intros l Hl; rewrite Gi by assumption; reflexivity). rewrite (Pm a a Ha Ha), Nat.eqb_refl, Ov. ring.
    + intros k Hk Nk. rewrite (Sum_ext A NE _ (fun l => get (moments A p X (identity A)) k l *. get m l a)) by (intros l Hl; rewrite Gi by assumption; reflexivity). rewrite (Pm k a Hk Ha).
      destruct (Nat.eqb_spec k a); [contradiction|]. ring.
  - rewrite (Sum_ext A NE _ (fun k => Sum NE (fun l => (v *. get m l a) *. (om *. S0 l k *. get (m_vcc s) k a)))).
    + rewrite (Sum_fold_swap NE NE). rewrite (Sum_one A FL NE _ a Ha).
      * rewrite (Sum_scale A FL). rewrite (Sum_ext A NE _ (fun k => get (moments A p X (weights (m_ivcu s))) a k *. get (m_vcc s) k a)) by (intros k Hk; rewrite Gw by assumption; reflexivity).
        rewrite (Pv a a Ha Ha), Nat.eqb_refl. ring.
      * intros l Hl Nl. rewrite (Sum_scale A FL). rewrite (Sum_ext A NE _ (fun k => get (moments A p X (weights (m_ivcu s))) l k *. get (m_vcc s) k a)) by (intros k Hk; rewrite Gw by assumption; reflexivity).
        rewrite (Pv l a Hl Ha). destruct (Nat.eqb_spec l a); [contradiction|]. ring.
    + intros k Hk. transitivity (get (m_vcc s) k a *. (v *. om) *. Sum NE (fun l => S0 k l *. get m l a)); [ring|]. rewrite <- (Sum_scale A FL). apply Sum_ext. intros l Hl. rewrite (Sy l k). ring.
Qed.
End Problem.
End Estim.
