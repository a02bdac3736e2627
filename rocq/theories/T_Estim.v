(** Estimation: the normal equations, least squares, convergence, instruments. *)
From Coq Require Import ZArith List Bool Lia QArith Qcanon Reals Field.
From Verif Require Import M_Base M_Exec M_Exact M_Real M_Matrix M_Estim S_Matrix S_Estim L_Matrix L_Estim L_Estim2 T_Matrix.
Import ListNotations.
Open Scope Z_scope.

(** * C84: the coefficients that are found *)

(** For equations that are linear in the coefficients, estimated with full steps: the residuals satisfy the normal equations
    (are orthogonal to the columns of the estimated coefficients, through the instruments if there are some), and the other
    coefficients have not changed. Excluded: one instrument, a coefficient whose estimated value is 0 (below 1/10^15), small numbers
    in the elimination. Each of the three is refuted below or in C83. *)
Theorem C84_normal_equations_partial : forall A, ordered_like A -> forall p X base, linear A p X base -> full_steps A p -> forall c s,
  length c = length (relax p) -> met p = EQ_LSQ \/ met p = EQ_INSTRUMENTAL -> ninstr p <> 1%nat -> regular A p X (identity A) c ->
  E_est A p c = Found s -> same_fixed A p c (coefs s) /\ normal A p X (identity A) (coefs s).
Proof.
  intros A OL p X base Lin Full c s Lc Hm Ni Reg H. destruct (single_stage A OL p X base Lin Full c s Lc Hm Ni Reg H) as (Sf & N & _). split; assumption.
Qed.
(** Zellner and GLS: the normal equations hold with the inverse of the covariances of the residuals of a first estimation,
    that satisfies the normal equations without weights. *)
Theorem C84_two_stages_partial : forall A, ordered_like A -> forall p X base, linear A p X base -> full_steps A p -> forall c s,
  length c = length (relax p) -> met p = EQ_ZELLNER \/ met p = EQ_GLS -> ninstr p <> 1%nat -> regular A p X (identity A) c ->
  (forall c1 v w, same_fixed A p c c1 -> normal A p X (identity A) c1 -> covariances A p c1 v -> product_one A (NEQ p) v w -> regular A p X (fun i j => get w i j) c) ->
  E_est A p c = Found s ->
  exists c1 v w, same_fixed A p c c1 /\ normal A p X (identity A) c1 /\ covariances A p c1 v /\ product_one A (NEQ p) v w
  /\ same_fixed A p c (coefs s) /\ normal A p X (fun i j => get w i j) (coefs s).
Proof.
  intros A OL p X base Lin Full c s Lc Hm Ni Reg Reg2 H. destruct (two_stages A OL p X base Lin Full c s Lc Hm Ni Reg Reg2 H) as (c1 & v & w & H1 & H2 & H3 & H4 & H5 & H6 & _).
  exists c1, v, w. split; [exact H1|]. split; [exact H2|]. split; [exact H3|]. split; [exact H4|]. split; [exact H5|exact H6].
Qed.
(** Least squares: no other values of the estimated coefficients give a smaller sum of squares. *)
Theorem C84_least_squares_partial : forall A, ordered_like A -> forall p X base, linear A p X base -> full_steps A p -> forall c s,
  length c = length (relax p) -> met p = EQ_LSQ -> ninstr p = 0%nat -> regular A p X (identity A) c -> E_est A p c = Found s ->
  forall c', same_fixed A p c c' -> lt A (squares A p c') (squares A p (coefs s)) = false.
Proof.
  intros A OL p X base Lin Full c s Lc Hm Ni Reg H c' Sf. destruct (single_stage A OL p X base Lin Full c s Lc (or_introl Hm) ltac:(lia) Reg H) as ((L & Fx) & N & _).
  apply (least A OL p X base Lin); [exact Ni|exact N|]. destruct Sf as (L' & Fx'). split; [exact L'|]. intros k Hk E. rewrite (Fx' k Hk E), (Fx k Hk E). reflexivity.
Qed.
(** And only these values give this sum, when the columns are independent: the result does not depend on the starting values. *)
Theorem C84_unique_partial : forall A, ordered_like A -> forall p X base, linear A p X base -> full_steps A p -> independent A p X -> forall c s,
  length c = length (relax p) -> met p = EQ_LSQ -> ninstr p = 0%nat -> regular A p X (identity A) c -> E_est A p c = Found s ->
  forall c', same_fixed A p c c' -> squares A p c' = squares A p (coefs s) -> c' = coefs s.
Proof.
  intros A OL p X base Lin Full Ind c s Lc Hm Ni Reg H c' Sf E. destruct (single_stage A OL p X base Lin Full c s Lc (or_introl Hm) ltac:(lia) Reg H) as ((L & Fx) & N & _).
  apply (unique A OL p X base Lin); try assumption. destruct Sf as (L' & Fx'). split; [exact L'|]. intros k Hk E'. rewrite (Fx' k Hk E'), (Fx k Hk E'). reflexivity.
Qed.
(** One linear equation with independent columns, whose residuals are not all 0 at the solution: the coefficients are found, after one or
    two iterations, from any starting values for which the equation can be calculated. *)
Theorem C84_found_partial : forall A, ordered_like A -> forall p X base, linear A p X base -> full_steps A p -> independent A p X -> forall c,
  length c = length (relax p) -> met p = EQ_LSQ -> NEQ p = 1%nat -> ninstr p = 0%nat -> (exists k, is_estimated A p k) -> (3 <= maxit p)%nat -> lt A (eps p) (ofZ A 0) = false ->
  regular A p X (identity A) c -> calculable A p (E_get_C A p c) ->
  (forall c', same_fixed A p c c' -> normal A p X (identity A) c' -> calculable A p c' /\ squares A p c' <> ofZ A 0) ->
  exists s, E_est A p c = Found s /\ (it s <= 2)%nat.
Proof.
  intros A OL p X base Lin Full Ind c Lc Hm N1 Ni (k & Ek) M3 He Reg Ca0 Ca. apply (one_equation_found A OL p X base Lin Full); try assumption.
  destruct (est_find A OL p k Ek) as (a & Ha & _). lia.
Qed.
(** The matrix of the instruments is the projection on the constant and the instruments. *)
Theorem C84_instruments : forall A, field_like A -> forall p z d, E_prep_instrs A p z = Some d ->
  let column j t := match j with O => ofZ A 1 | S j => get z j t end in
  (forall t s, (t < T p)%nat -> (s < T p)%nat -> get d t s = get d s t)
  /\ (forall t j, (t < T p)%nat -> (j <= length z)%nat -> Sum A (T p) (fun s => mul A (get d t s) (column j s)) = column j t)
  /\ (forall v, (forall j, (j <= length z)%nat -> Sum A (T p) (fun t => mul A (column j t) (v t)) = ofZ A 0) -> forall t, (t < T p)%nat -> Sum A (T p) (fun s => mul A (get d t s) (v s)) = ofZ A 0)
  /\ (forall t s, (t < T p)%nat -> (s < T p)%nat -> Sum A (T p) (fun k => mul A (get d t k) (get d k s)) = get d t s).
Proof.
  intros A FL p z d H column. destruct (instrs_spec A FL p z d H) as (H1 & H2 & H3 & H4).
  split; [exact H1|]. split; [intros t j Ht Hj; exact (H2 t j Ht ltac:(lia))|]. split; [|exact H3].
  intros v Hv. apply H4. intros j Hj. apply Hv. lia.
Qed.
Print Assumptions C84_normal_equations_partial.
Print Assumptions C84_two_stages_partial.
Print Assumptions C84_least_squares_partial.
Print Assumptions C84_unique_partial.
Print Assumptions C84_found_partial.
Print Assumptions C84_instruments.

(** The equation y = a + b x on three periods, x = -1, 0, 1. *)
Definition xs (t : nat) : Qc := match t with O => q_ofZ (-1) | S O => q_ofZ 0 | _ => q_ofZ 1 end.
Definition cols (i k t : nat) : Qc := match k with O => q_ofZ 1 | S O => xs t | _ => q_ofZ 0 end.
Definition line (ys : list Z) (m : nat) : problem exactly :=
  mkProblem exactly 3 1 [map q_ofZ ys] (fun _ c t => Qcplus (nth 0 c (q_ofZ 0)) (Qcmult (nth 1 c (q_ofZ 0)) (xs t))) (fun k i => Nat.ltb k 2)
    [q_ofZ 1; q_ofZ 1] EQ_LSQ (Qcdiv (q_ofZ 1) (q_ofZ 100000)) m 0 [].
Definition no_base (i t : nat) : Qc := q_ofZ 0.
Lemma line_linear ys m : linear exactly (line ys m) cols no_base.
Proof.
  split.
  - intros i c t Hi Ht. cbn [line rhs relax length Sum]. cbn [exactly add mul ofZ F]. unfold no_base, cols. change (q_ofZ 0) with 0%Qc. change (q_ofZ 1) with 1%Qc. ring.
  - intros i k t E. destruct k as [|[|k]]; [discriminate E|discriminate E|reflexivity].
Qed.
Lemma line_full ys m : full_steps exactly (line ys m).
Proof. intros r [<-|[<-|[]]]; right; reflexivity. Qed.
Lemma line_independent ys m : independent exactly (line ys m) cols.
Proof.
  intros d (k & (Hk & _) & Nk). cbn [line relax length] in Hk. cbn [line relax length Sum T NEQ]. cbn [exactly F ofZ add mul] in * .
  assert (R : forall j, (j < 2)%nat -> eq exactly (nth j [q_ofZ 1; q_ofZ 1] (q_ofZ 0)) (q_ofZ 0) = false) by (intros [|[|j]] Hj; [reflexivity|reflexivity|lia]).
  destruct (Qc_eq_dec (d 0%nat) 0%Qc) as [E|N].
  - exists 0%nat, 2%nat. split; [lia|]. split; [lia|]. rewrite !R by lia. cbn [cols xs]. change (q_ofZ 0) with 0%Qc in * . change (q_ofZ 1) with 1%Qc.
    intros K. apply Nk. destruct k as [|[|k]]; [exact E| |lia]. rewrite E in K. etransitivity; [|exact K]. ring.
  - exists 0%nat, 1%nat. split; [lia|]. split; [lia|]. rewrite !R by lia. cbn [cols xs]. change (q_ofZ 0) with 0%Qc in * . change (q_ofZ 1) with 1%Qc.
    intros K. apply N. etransitivity; [|exact K]. ring.
Qed.
(** Refuted: a coefficient whose estimate is 0. It is reported as 1/10 (y = 1, 2, 1: a = 4/3, b = 0). *)
Definition zero_check : bool :=
  match E_est exactly (line [1; 2; 1] 10) [q_ofZ 1; q_ofZ 1] with
  | Found s => lt exactly (squares exactly (line [1; 2; 1] 10) [Qcdiv (q_ofZ 4) (q_ofZ 3); q_ofZ 0]) (squares exactly (line [1; 2; 1] 10) (coefs s))
               && Qeq_bool (this (nth 1 (coefs s) (q_ofZ 0))) (1 # 10)
  | _ => false end.
Lemma zero_found : zero_check = true.
Proof. vm_compute. reflexivity. Qed.
Theorem C84_zero_refuted : ~ (forall A, ordered_like A -> forall p X base, linear A p X base -> full_steps A p -> independent A p X -> forall c s,
  length c = length (relax p) -> met p = EQ_LSQ -> NEQ p = 1%nat -> ninstr p = 0%nat -> E_est A p c = Found s ->
  forall c', same_fixed A p c c' -> lt A (squares A p c') (squares A p (coefs s)) = false).
Proof.
  intros H. pose proof zero_found as E. unfold zero_check in E.
  destruct (E_est exactly (line [1; 2; 1] 10) [q_ofZ 1; q_ofZ 1]) as [s| |] eqn:Es; [|discriminate E|discriminate E]. apply andb_true_iff in E. destruct E as (E & _).
  assert (Sf : same_fixed exactly (line [1; 2; 1] 10) [q_ofZ 1; q_ofZ 1] [Qcdiv (q_ofZ 4) (q_ofZ 3); q_ofZ 0]).
  { split; [reflexivity|]. intros k Hk N. exfalso. apply N. split; [exact Hk|]. destruct k as [|[|k]]; [discriminate|discriminate|cbn in Hk; lia]. }
  rewrite (H exactly ordered_exactly _ cols no_base (line_linear [1; 2; 1] 10) (line_full _ _) (line_independent _ _) _ s eq_refl eq_refl eq_refl eq_refl Es _ Sf) in E. discriminate E.
Qed.

(** The least squares of the line. *)
Lemma line_normal y0 y1 y2 m (u v : Qc) : normal exactly (line [y0; y1; y2] m) cols (identity exactly) [u; v] ->
  u = Qcdiv (Qcplus (Qcplus (q_ofZ y0) (q_ofZ y1)) (q_ofZ y2)) (q_ofZ 3) /\ v = Qcdiv (Qcminus (q_ofZ y2) (q_ofZ y0)) (q_ofZ 2).
Proof.
  intros N. pose proof (N 0%nat) as N0. pose proof (N 1%nat) as N1. clear N.
  assert (E0 : is_estimated exactly (line [y0; y1; y2] m) 0) by (split; [cbn; lia|discriminate]). assert (E1 : is_estimated exactly (line [y0; y1; y2] m) 1) by (split; [cbn; lia|discriminate]).
  specialize (N0 E0). specialize (N1 E1). unfold instrumented in N0, N1. cbn [line ninstr Nat.ltb Nat.leb NEQ T Sum] in N0, N1. unfold identity, residual in N0, N1.
  cbn [line rhs lhs get nth map Nat.eqb cols xs] in N0, N1. cbn [exactly F ofZ add mul sub] in N0, N1. change Qc in u, v.
  change (q_ofZ 0) with 0%Qc in * . change (q_ofZ 1) with 1%Qc in * . change (q_ofZ (-1)) with (- (1))%Qc in * .
  change (q_ofZ 3) with (1 + 1 + 1)%Qc. change (q_ofZ 2) with (1 + 1)%Qc.
  set (a := q_ofZ y0) in * . set (b := q_ofZ y1) in * . set (d := q_ofZ y2) in * . clearbody a b d.
  assert (P3 : (1 + 1 + 1)%Qc <> 0%Qc) by discriminate. assert (P2 : (1 + 1)%Qc <> 0%Qc) by discriminate. split.
  - assert (K : (a + b + d)%Qc = ((1 + 1 + 1) * u)%Qc) by (transitivity ((1 + 1 + 1) * u + 0)%Qc; [rewrite <- N0; ring|ring]). rewrite K. field. exact P3.
  - assert (K : (d - a)%Qc = ((1 + 1) * v)%Qc) by (transitivity ((1 + 1) * v + 0)%Qc; [rewrite <- N1; ring|ring]). rewrite K. field. exact P2.
Qed.
Lemma line_fixed ys m c c' : same_fixed exactly (line ys m) c c' -> exists u v, c' = [u; v].
Proof. intros (L & _). destruct c' as [|u [|v [|w c']]]; try discriminate L. exists u, v. reflexivity. Qed.

Lemma line_regular_at y0 y1 y2 m c : (forall r, In r [Qcdiv (Qcplus (Qcplus (q_ofZ y0) (q_ofZ y1)) (q_ofZ y2)) (q_ofZ 3); Qcdiv (Qcminus (q_ofZ y2) (q_ofZ y0)) (q_ofZ 2)] -> tiny exactly r = false) ->
  tiny_check (length (moments exactly (line [y0; y1; y2] m) cols (identity exactly))) (moments exactly (line [y0; y1; y2] m) cols (identity exactly)) [] = true ->
  regular exactly (line [y0; y1; y2] m) cols (identity exactly) c.
Proof.
  intros Ht Hc. split; [apply (no_tiny_any _ _ _ []); apply tiny_checked; exact Hc|].
  intros c' Sf N k Ek. destruct (line_fixed _ _ _ _ Sf) as (u & v & ->). destruct (line_normal _ _ _ _ _ _ N) as (-> & ->).
  destruct Ek as (Hk & _). apply Ht. destruct k as [|[|k]]; [left; reflexivity|right; left; reflexivity|cbn in Hk; lia].
Qed.
Definition calculable_b (p : problem exactly) (c : list Qc) : bool :=
  forallb (fun i => forallb (fun t => num exactly (rhs p i c t) && forallb (fun k =>
    let x := rhs p i (upd exactly k (Qcmult (nth k c (q_ofZ 0)) (Qcplus (q_ofZ 1) (step_h exactly))) c) t in num exactly x && q_lt x (MAXFLOAT exactly)) (seq 0 (length (relax p)))) (seq 0 (T p))) (seq 0 (NEQ p)).
Lemma calculable_checked p c : calculable_b p c = true -> calculable exactly p c.
Proof.
  intros H i t Hi Ht. unfold calculable_b in H. rewrite forallb_forall in H. specialize (H i ltac:(apply in_seq; lia)). rewrite forallb_forall in H. specialize (H t ltac:(apply in_seq; lia)).
  apply andb_true_iff in H. destruct H as (H1 & H2). split; [exact H1|]. intros k (Hk & _). rewrite forallb_forall in H2. specialize (H2 k ltac:(apply in_seq; lia)).
  apply andb_true_iff in H2. exact H2.
Qed.
(** Refuted: an equation that fits exactly (y = 1, 3, 5) is not estimated: the sum of squares has no inverse. *)
Theorem C84_exact_fit_refuted : ~ (forall A, ordered_like A -> forall p X base, linear A p X base -> full_steps A p -> independent A p X -> forall c,
  length c = length (relax p) -> met p = EQ_LSQ -> NEQ p = 1%nat -> ninstr p = 0%nat -> (exists k, is_estimated A p k) -> (3 <= maxit p)%nat -> lt A (eps p) (ofZ A 0) = false ->
  regular A p X (identity A) c -> calculable A p (E_get_C A p c) -> (forall c', same_fixed A p c c' -> normal A p X (identity A) c' -> calculable A p c') ->
  exists s, E_est A p c = Found s).
Proof.
  intros H. destruct (H exactly ordered_exactly _ cols no_base (line_linear [1; 3; 5] 10) (line_full _ _) (line_independent _ _) [q_ofZ 1; q_ofZ 1]) as (s & E); try reflexivity.
  - exists 0%nat. split; [cbn; lia|discriminate].
  - cbn. lia.
  - apply line_regular_at; [|vm_compute; reflexivity]. intros r [<-|[<-|[]]]; vm_compute; reflexivity.
  - apply calculable_checked. vm_compute. reflexivity.
  - intros c' Sf N. destruct (line_fixed _ _ _ _ Sf) as (u & v & ->). destruct (line_normal _ _ _ _ _ _ N) as (-> & ->). apply calculable_checked. vm_compute. reflexivity.
  - assert (K : (match E_est exactly (line [1; 3; 5] 10) [q_ofZ 1; q_ofZ 1] with Found _ => true | _ => false end) = false) by (vm_compute; reflexivity).
    rewrite E in K. discriminate K.
Qed.
(** Refuted: the coefficients are unchanged after a failure (here they are 3 and 2 in the place of 1 and 1). *)
Theorem C84_failure_keeps_refuted : ~ (forall A, ordered_like A -> forall p c c', E_est A p c = NotFound c' -> c' = c).
Proof.
  intros H. assert (K : (match E_est exactly (line [1; 3; 5] 10) [q_ofZ 1; q_ofZ 1] with NotFound c => forallb (fun x => Qeq_bool (this x) 1) c | _ => true end) = false) by (vm_compute; reflexivity).
  destruct (E_est exactly (line [1; 3; 5] 10) [q_ofZ 1; q_ofZ 1]) as [|c|] eqn:E; [discriminate K| |discriminate K].
  rewrite (H exactly ordered_exactly _ _ _ E) in K. vm_compute in K. discriminate K.
Qed.
(** Refuted: the convergence is reported when it is reached at the last iteration: two iterations allowed, two needed (and found
    when three are allowed). *)
Theorem C84_last_iteration_refuted : ~ (forall A, ordered_like A -> forall p X base, linear A p X base -> full_steps A p -> independent A p X -> forall c,
  length c = length (relax p) -> met p = EQ_LSQ -> NEQ p = 1%nat -> ninstr p = 0%nat -> (exists k, is_estimated A p k) -> (2 <= maxit p)%nat -> lt A (eps p) (ofZ A 0) = false ->
  regular A p X (identity A) c -> calculable A p (E_get_C A p c) -> (forall c', same_fixed A p c c' -> normal A p X (identity A) c' -> calculable A p c' /\ squares A p c' <> ofZ A 0) ->
  exists s, E_est A p c = Found s).
Proof.
  intros H. destruct (H exactly ordered_exactly _ cols no_base (line_linear [1; 2; 6] 2) (line_full _ _) (line_independent _ _) [q_ofZ 1; q_ofZ 1]) as (s & E); try reflexivity.
  - exists 0%nat. split; [cbn; lia|discriminate].
  - apply line_regular_at; [|vm_compute; reflexivity]. intros r [<-|[<-|[]]]; vm_compute; reflexivity.
  - apply calculable_checked. vm_compute. reflexivity.
  - intros c' Sf N. destruct (line_fixed _ _ _ _ Sf) as (u & v & ->). destruct (line_normal _ _ _ _ _ _ N) as (-> & ->). split; [apply calculable_checked; vm_compute; reflexivity|].
    intros K. apply (f_equal (fun x : Qc => Qeq_bool (this x) 0)) in K. vm_compute in K. discriminate K.
  - assert (K : (match E_est exactly (line [1; 2; 6] 2) [q_ofZ 1; q_ofZ 1] with Found _ => true | _ => false end) = false) by (vm_compute; reflexivity).
    rewrite E in K. discriminate K.
Qed.
(** Non-vacuity: the same equation with 10 iterations allowed. The coefficients are 3 and 5/2. *)
Example line_found : exists s, E_est exactly (line [1; 2; 6] 10) [q_ofZ 1; q_ofZ 1] = Found s /\ (it s <= 2)%nat
  /\ regular exactly (line [1; 2; 6] 10) cols (identity exactly) [q_ofZ 1; q_ofZ 1] /\ map this (coefs s) = [(3 # 1)%Q; (5 # 2)%Q].
Proof.
  assert (Rg : regular exactly (line [1; 2; 6] 10) cols (identity exactly) [q_ofZ 1; q_ofZ 1]) by (apply line_regular_at; [|vm_compute; reflexivity]; intros r [<-|[<-|[]]]; vm_compute; reflexivity).
  destruct (C84_found_partial exactly ordered_exactly _ cols no_base (line_linear [1; 2; 6] 10) (line_full _ _) (line_independent _ _) [q_ofZ 1; q_ofZ 1]) as (s & E & I); try reflexivity; try assumption.
  - exists 0%nat. split; [cbn; lia|discriminate].
  - cbn. lia.
  - apply calculable_checked. vm_compute. reflexivity.
  - intros c' Sf N. destruct (line_fixed _ _ _ _ Sf) as (u & v & ->). destruct (line_normal _ _ _ _ _ _ N) as (-> & ->). split; [apply calculable_checked; vm_compute; reflexivity|].
    intros K. apply (f_equal (fun x : Qc => Qeq_bool (this x) 0)) in K. vm_compute in K. discriminate K.
  - exists s. split; [exact E|]. split; [exact I|]. split; [exact Rg|].
    assert (K : (match E_est exactly (line [1; 2; 6] 10) [q_ofZ 1; q_ofZ 1] with Found s => map this (coefs s) | _ => [] end) = [(3 # 1)%Q; (5 # 2)%Q]) by (vm_compute; reflexivity).
    rewrite E in K. exact K.
Qed.
(** Refuted: with a negative relaxation the program writes outside its matrices. *)
Definition negative : problem exactly :=
  mkProblem exactly 3 1 [map q_ofZ [1; 2; 6]] (fun _ c t => Qcplus (nth 0 c (q_ofZ 0)) (Qcmult (nth 1 c (q_ofZ 0)) (xs t))) (fun k i => Nat.ltb k 2)
    [q_ofZ 1; q_ofZ (-1)] EQ_LSQ (Qcdiv (q_ofZ 1) (q_ofZ 100000)) 10 0 [].
Theorem C84_defined_refuted : ~ (forall A, ordered_like A -> forall p c, E_est A p c <> Undef).
Proof.
  intros H. assert (K : (match E_est exactly negative [q_ofZ 1; q_ofZ 1] with Undef => true | _ => false end) = true) by (vm_compute; reflexivity).
  destruct (E_est exactly negative [q_ofZ 1; q_ofZ 1]) eqn:E; [discriminate K|discriminate K|]. exact (H exactly ordered_exactly _ _ E).
Qed.
(** Refuted: with one instrument the normal equations do not hold (the moments are calculated without it, e_est.cpp:69, the residuals
    with it, 306): y = b x with x = 1, 2, 5 and the instrument 1, 2, 3. *)
Definition xi (t : nat) : Qc := match t with O => q_ofZ 1 | S O => q_ofZ 2 | _ => q_ofZ 5 end.
Definition one_instrument (d : mat exactly) : problem exactly :=
  mkProblem exactly 3 1 [map q_ofZ [1; 3; 4]] (fun _ c t => Qcmult (nth 0 c (q_ofZ 0)) (xi t)) (fun k i => Nat.eqb k 0) [q_ofZ 1] EQ_INSTRUMENTAL (Qcdiv (q_ofZ 1) (q_ofZ 100000)) 10 1 d.
Definition cols1 (i k t : nat) : Qc := match k with O => xi t | _ => q_ofZ 0 end.
Theorem C84_one_instrument_refuted : ~ (forall A, ordered_like A -> forall p X base, linear A p X base -> full_steps A p -> forall z c s,
  length c = length (relax p) -> met p = EQ_INSTRUMENTAL -> ninstr p = length z -> E_prep_instrs A p z = Some (D p) -> (forall b, no_tiny A (length (moments A p X (identity A))) (moments A p X (identity A)) b) ->
  no_zero_coef A p (coefs s) -> E_est A p c = Found s -> normal A p X (identity A) (coefs s)).
Proof.
  intros H. set (z := [map q_ofZ [1; 2; 3]]).
  destruct (E_prep_instrs exactly (one_instrument []) z) as [d|] eqn:Ed; [|vm_compute in Ed; discriminate Ed].
  assert (K : (match E_prep_instrs exactly (one_instrument []) z with None => false | Some d => match E_est exactly (one_instrument d) [q_ofZ 1] with
     | Found s => negb (tiny exactly (nth 0 (coefs s) (q_ofZ 0)))
       && tiny_check (length (moments exactly (one_instrument d) cols1 (identity exactly))) (moments exactly (one_instrument d) cols1 (identity exactly)) []
       && negb (Qeq_bool (this (Sum exactly 3 (fun t => Qcmult (xi t) (instrumented exactly (one_instrument d) (fun s0 => residual exactly (one_instrument d) (coefs s) 0 s0) t)))) 0)
     | _ => false end end) = true) by (vm_compute; reflexivity).
  rewrite Ed in K. destruct (E_est exactly (one_instrument d) [q_ofZ 1]) as [s| |] eqn:Es; [|discriminate K|discriminate K].
  apply andb_true_iff in K. destruct K as (K & K3). apply andb_true_iff in K. destruct K as (K1 & K2).
  assert (N : normal exactly (one_instrument d) cols1 (identity exactly) (coefs s)).
  { apply (H exactly ordered_exactly (one_instrument d) cols1 no_base) with (z := z) (c := [q_ofZ 1]); try reflexivity.
    - split.
      + intros i c t Hi Ht. cbn [one_instrument rhs relax length Sum]. cbn [exactly add mul ofZ F]. unfold no_base, cols1. change (q_ofZ 0) with 0%Qc. ring.
      + intros i k t E. destruct k as [|k]; [discriminate E|reflexivity].
    - intros r [<-|[]]. right. reflexivity.
    - exact Ed.
    - apply (no_tiny_any _ _ _ []). apply tiny_checked. exact K2.
    - intros k (Hk & _). cbn in Hk. replace k with 0%nat by lia. apply negb_true_iff. exact K1.
    - exact Es. }
  specialize (N 0%nat ltac:(split; [cbn; lia|discriminate])). apply negb_true_iff in K3.
  assert (Q : Sum exactly 3 (fun t => Qcmult (xi t) (instrumented exactly (one_instrument d) (fun s0 => residual exactly (one_instrument d) (coefs s) 0 s0) t)) = q_ofZ 0).
  { etransitivity; [|exact N]. cbn [one_instrument NEQ Sum]. unfold instrumented, identity. cbn [one_instrument ninstr Nat.ltb Nat.leb NEQ T Sum Nat.eqb].
    cbn [exactly F ofZ add mul]. change (q_ofZ 0) with 0%Qc. change (q_ofZ 1) with 1%Qc. unfold cols1. ring. }
  rewrite Q in K3. discriminate K3.
Qed.
Print Assumptions C84_zero_refuted.
Print Assumptions C84_exact_fit_refuted.
Print Assumptions C84_failure_keeps_refuted.
Print Assumptions C84_last_iteration_refuted.
Print Assumptions C84_defined_refuted.
Print Assumptions C84_one_instrument_refuted.
