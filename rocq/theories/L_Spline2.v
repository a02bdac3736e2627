(** The cubic spline in exact arithmetic: a natural spline for stocks, sums for flows. *)
From Coq Require Import ZArith Ascii String List Bool Lia QArith Qcanon Lqa.
From Verif Require Import M_Base M_Time M_Names M_Lex M_Compile M_Bytes M_Exec M_Exact M_Kdb M_Vars M_Freq S_Time S_Vars S_Freq S_Spline
  L_Time L_Names L_Kdb L_Vars L_Vars2 L_Vars5 L_Freq L_Freq2 L_Freq3 L_Freq4 L_Freq5 L_Freq6 L_Spline.
Import ListNotations.
Open Scope Z_scope.
Local Arguments Z.add : simpl never.
Local Arguments Z.sub : simpl never.
Local Arguments Z.mul : simpl never.
Notation A := exactly.

(** * Rationals *)
Ltac qc := match goal with |- @Logic.eq _ ?a ?b => change (@Logic.eq Qc a b) end.
Lemma t_add x y : (this (x + y)%Qc == this x + this y)%Q. Proof. unfold Qcplus. cbn [this Q2Qc]. apply Qred_correct. Qed.
Lemma t_opp x : (this (- x)%Qc == - this x)%Q. Proof. unfold Qcopp. cbn [this Q2Qc]. apply Qred_correct. Qed.
Lemma t_sub x y : (this (x - y)%Qc == this x - this y)%Q. Proof. unfold Qcminus. rewrite t_add, t_opp. reflexivity. Qed.
Lemma t_mul x y : (this (x * y)%Qc == this x * this y)%Q. Proof. unfold Qcmult. cbn [this Q2Qc]. apply Qred_correct. Qed.
Lemma t_div x y : y <> 0%Qc -> (this (x / y)%Qc * this y == this x)%Q.
Proof. intros H. rewrite <- t_mul. replace (x / y * y)%Qc with x by (field; auto). reflexivity. Qed.
Lemma t_Z z : (this (q_ofZ z) == inject_Z z)%Q. Proof. apply qz_this. Qed.
Lemma qz_2 : q_ofZ 2 = (1 + 1)%Qc. Proof. reflexivity. Qed.
Lemma qz_3 : q_ofZ 3 = (1 + (1 + 1))%Qc. Proof. reflexivity. Qed.
Lemma qz_6 : q_ofZ 6 = ((1 + 1) * (1 + (1 + 1)))%Qc. Proof. reflexivity. Qed.
Lemma qz_sub a b : q_ofZ (a - b) = (q_ofZ a - q_ofZ b)%Qc.
Proof. assert (H : q_ofZ (a - b + b) = (q_ofZ (a - b) + q_ofZ b)%Qc) by apply qz_add. replace (a - b + b) with a in H by lia. rewrite H. ring. Qed.
Lemma nz_2 : (1 + 1)%Qc <> 0%Qc. Proof. discriminate. Qed.
Lemma nz_3 : (1 + (1 + 1))%Qc <> 0%Qc. Proof. discriminate. Qed.
Lemma qz_ne m : m <> 0 -> q_ofZ m <> 0%Qc.
Proof. intros H. change 0%Qc with (q_ofZ 0). now apply qz_nz. Qed.

(** * The natural spline *)
Notation at_ := (at_ A).
Definition oh : Qc := one_half A.
Lemma oh_eq : oh = (1 / (1 + 1))%Qc. Proof. reflexivity. Qed.
Lemma pivot_eq q : pivot A q = (q / (1 + 1) + (1 + 1))%Qc.
Proof. unfold pivot. change (one_half A) with oh. rewrite oh_eq. cbn [M_Exec.add mul A ofZ]. rewrite qz_2. qc. field. exact nz_2. Qed.

Definition qb (q : Qc) : Prop := (- (1 # 3) <= this q <= 0)%Q.
Lemma pivot_bound q : qb q -> ((11 # 6) <= this (pivot A q) <= 2)%Q.
Proof.
  unfold qb. intros H. rewrite pivot_eq, t_add. pose proof (t_div q (1 + 1)%Qc nz_2) as D. change (this (1 + 1)%Qc) with (2 # 1) in *. lra.
Qed.
Lemma pivot_nz q : qb q -> pivot A q <> 0%Qc.
Proof. intros H E. apply pivot_bound in H. rewrite E in H. change (this 0%Qc) with 0%Q in H. lra. Qed.
Lemma next_q_eq q : next_q A q = (- (1 / (1 + 1)) / pivot A q)%Qc.
Proof. unfold next_q. change (one_half A) with oh. rewrite oh_eq. cbn [sub dvd ofZ A]. rewrite qz_1. qc. f_equal. Qed.
Lemma next_q_bound q : qb q -> qb (next_q A q).
Proof.
  intros H. pose proof (pivot_bound q H) as P. pose proof (t_div (- (1 / (1 + 1)))%Qc _ (pivot_nz q H)) as D. rewrite <- next_q_eq in D.
  change (this (- (1 / (1 + 1)))%Qc) with (- 1 # 2) in D. unfold qb. split; nra.
Qed.

Section Spline.
Context (y : Z -> Qc) (q w m : Z -> Qc) (N : Z).
Definition dd (k : Z) : Qc := (y (k + 1)%Z - (1 + 1) * y k + y (k - 1)%Z)%Qc.
Hypothesis Q0 : q 0 = 0%Qc.
Hypothesis W0 : w 0 = 0%Qc.
Hypothesis Rq : forall k, 1 <= k < N -> q k = next_q A (q (k - 1)).
Hypothesis Rw : forall k, 1 <= k < N -> w k = next_u A (dd k) (q (k - 1)) (w (k - 1)).
Hypothesis MN : m N = 0%Qc.
Hypothesis Rm : forall k, 0 <= k < N -> m k = (q k * m (k + 1)%Z + w k)%Qc.
Hypothesis HN : 0 <= N.

Lemma q_bound : forall k, 0 <= k < N -> qb (q k).
Proof.
  intros k Hk. assert (G : forall n, Z.of_nat n < N -> qb (q (Z.of_nat n))).
  { induction n as [|n IH]; intros Hn.
    - change (Z.of_nat 0) with 0. rewrite Q0. unfold qb. split; discriminate.
    - rewrite Rq by lia. replace (Z.of_nat (S n) - 1) with (Z.of_nat n) by lia. apply next_q_bound, IH. lia. }
  specialize (G (Z.to_nat k)). rewrite Z2Nat.id in G by lia. apply G. lia.
Qed.
Lemma m_0 : m 0 = 0%Qc.
Proof. destruct (Z.eq_dec N 0) as [E|]; [rewrite <- E at 1; exact MN|]. rewrite (Rm 0), Q0, W0 by lia. ring. Qed.
(** The equations of the second derivatives. *)
Lemma m_eq k : 1 <= k < N -> (m (k - 1)%Z + (1 + 1) * (1 + 1) * m k + m (k + 1)%Z = (1 + 1) * (1 + (1 + 1)) * dd k)%Qc.
Proof.
  intros Hk. pose proof (q_bound (k - 1) ltac:(lia)) as B. pose proof (pivot_nz _ B) as P.
  pose proof (Rm k ltac:(lia)) as E. rewrite (Rq k Hk), (Rw k Hk), next_q_eq in E.
  unfold next_u in E. change (one_half A) with oh in E. rewrite oh_eq in E. cbn [M_Exec.add sub mul dvd ofZ A] in E. rewrite qz_3 in E.
  rewrite (Rm (k - 1) ltac:(lia)). replace (k - 1 + 1) with k by lia.
  rewrite pivot_eq in E, P. set (Qk := q (k - 1)) in *. set (Wk := w (k - 1)) in *. set (a := m k) in *. set (b := m (k + 1)) in *. set (d := dd k) in *.
  assert (E' : (a * (Qk / (1 + 1) + (1 + 1)) = - (1 / (1 + 1)) * b + ((1 + (1 + 1)) * d - 1 / (1 + 1) * Wk))%Qc).
  { clear B. revert E P. generalize (Qk / (1 + 1) + (1 + 1))%Qc. intros Pk E P. rewrite E. field. repeat split; auto; discriminate. }
  assert (E2 : ((1 + 1) * (a * (Qk / (1 + 1) + (1 + 1))) = (1 + 1) * (- (1 / (1 + 1)) * b + ((1 + (1 + 1)) * d - 1 / (1 + 1) * Wk)))%Qc) by (now rewrite E').
  clear E E' Rm Rw Rq. clearbody Qk Wk a b d.
  replace ((1 + 1) * (a * (Qk / (1 + 1) + (1 + 1))))%Qc with (a * Qk + (1 + 1) * (1 + 1) * a)%Qc in E2 by (field; exact nz_2).
  replace ((1 + 1) * (- (1 / (1 + 1)) * b + ((1 + (1 + 1)) * d - 1 / (1 + 1) * Wk)))%Qc with (- b + (1 + 1) * (1 + (1 + 1)) * d - Wk)%Qc in E2 by (field; exact nz_2).
  replace (Qk * a + Wk + (1 + 1) * (1 + 1) * a + b)%Qc with ((a * Qk + (1 + 1) * (1 + 1) * a) + Wk + b)%Qc by ring. rewrite E2. ring.
Qed.
Definition piece (i : Z) : cubic :=
  mkCubic (y i) (y (i + 1)%Z - y i - ((1 + 1) * m i + m (i + 1)%Z) / ((1 + 1) * (1 + (1 + 1)))) (m i / (1 + 1)) ((m (i + 1)%Z - m i) / ((1 + 1) * (1 + (1 + 1)))).
Ltac fld := qc; field; repeat split; try exact nz_2; try exact nz_3; try discriminate.
Lemma piece_spline : natural_spline y N piece.
Proof.
  split; [|split].
  - intros i Hi. unfold eval, piece. cbn [c0 c1 c2 c3]. split; [ring|fld].
  - intros i Hi. unfold slope, bend, piece, three, two. cbn [c0 c1 c2 c3]. pose proof (m_eq (i + 1) ltac:(lia)) as E.
    unfold dd in E. replace (i + 1 - 1) with i in E by lia. set (a := m i) in *. set (b := m (i + 1)) in *. set (c := m (i + 1 + 1)) in *.
    set (u := y i) in *. set (v := y (i + 1)) in *. set (x := y (i + 1 + 1)) in *. split; [|fld].
    assert (E' : c = ((1 + 1) * (1 + (1 + 1)) * (x - (1 + 1) * v + u) - a - (1 + 1) * (1 + 1) * b)%Qc) by (rewrite <- E; ring).
    rewrite E'. fld.
  - intros P. unfold bend, piece, three, two. cbn [c0 c1 c2 c3]. rewrite m_0. replace (N - 1 + 1) with N by lia. rewrite MN. split; fld.
Qed.
(** The value computed. *)
Lemma value_piece f k sh : 0 < k < sh -> (forall v y2, at_ v f = y f -> at_ v (f + 1) = y (f + 1) -> at_ y2 f = m f -> at_ y2 (f + 1) = m (f + 1) ->
  cs_val A v y2 f k sh = eval (piece f) (q_ofZ k / q_ofZ sh))%Qc.
Proof.
  intros Hk v y2 Y0 Y1 M0 M1. unfold cs_val. cbv zeta. rewrite Z.div_small by lia. replace (f + 0) with f by lia. rewrite Y0, Y1, M0, M1.
  cbn [M_Exec.add sub mul dvd ofZ A]. rewrite qz_add, qz_1, qz_6. unfold eval, piece. cbn [c0 c1 c2 c3].
  set (t := (q_ofZ k / q_ofZ sh)%Qc). fld.
Qed.
Lemma value_end f sh : 0 < sh -> (forall v y2, at_ v (f + 1) = y (f + 1) -> cs_val A v y2 f sh sh = eval (piece f) 1)%Qc.
Proof.
  intros Hs v y2 Y1. unfold cs_val. cbv zeta. rewrite Z.div_same by lia. rewrite Y1. cbn [M_Exec.add sub mul dvd ofZ A].
  rewrite !qz_add, !qz_1, qz_6. unfold eval, piece. cbn [c0 c1 c2 c3]. fld. apply qz_ne. lia.
Qed.
End Spline.

(** * The natural spline is unique *)
Section Unique.
Context (e : Z -> Qc) (N : Z).
Hypothesis E0 : e 0 = 0%Qc.
Hypothesis EN : e N = 0%Qc.
Hypothesis Rec : forall k, 1 <= k < N -> (e (k - 1)%Z + (1 + 1) * (1 + 1) * e k + e (k + 1)%Z = 0)%Qc.
Lemma grows k : 0 <= k < N -> (4 * (this (e k) * this (e k)) <= this (e (k + 1)%Z) * this (e (k + 1)%Z))%Q.
Proof.
  intros Hk. assert (G : forall n, Z.of_nat n < N -> (4 * (this (e (Z.of_nat n)) * this (e (Z.of_nat n))) <= this (e (Z.of_nat n + 1)%Z) * this (e (Z.of_nat n + 1)%Z))%Q).
  { induction n as [|n IH]; intros Hn.
    - change (Z.of_nat 0) with 0. rewrite E0. change (this (Q2Qc 0)) with 0%Q. nra.
    - specialize (IH ltac:(lia)). pose proof (Rec (Z.of_nat (S n)) ltac:(lia)) as Rk.
      assert (Rq : (this (e (Z.of_nat (S n) - 1)%Z) + 4 * this (e (Z.of_nat (S n))) + this (e (Z.of_nat (S n) + 1)%Z) == 0)%Q).
      { assert (X : (this (e (Z.of_nat (S n) - 1)%Z + (1 + 1) * (1 + 1) * e (Z.of_nat (S n)) + e (Z.of_nat (S n) + 1)%Z)%Qc == 0)%Q) by (rewrite Rk; reflexivity).
        rewrite !t_add, !t_mul in X. change (this (1 + 1)%Qc) with 2%Q in X. lra. }
      replace (Z.of_nat (S n) - 1) with (Z.of_nat n) in Rq by lia. replace (Z.of_nat n + 1) with (Z.of_nat (S n)) in IH by lia.
      set (a := this (e (Z.of_nat n))) in *. set (b := this (e (Z.of_nat (S n)))) in *. set (c := this (e (Z.of_nat (S n) + 1))) in *. clearbody a b c.
      assert (C : (c == - (a + 4 * b))%Q) by lra. rewrite C. assert (0 <= (a + b) * (a + b))%Q by nra. nra. }
  specialize (G (Z.to_nat k)). rewrite Z2Nat.id in G by lia. apply G. lia.
Qed.
Lemma all_zero k : 0 <= k <= N -> e k = 0%Qc.
Proof.
  intros Hk. assert (G : forall n, Z.of_nat n <= N -> e (N - Z.of_nat n) = 0%Qc).
  { induction n as [|n IH]; intros Hn.
    - now replace (N - Z.of_nat 0) with N by lia.
    - specialize (IH ltac:(lia)). pose proof (grows (N - Z.of_nat (S n)) ltac:(lia)) as Gk.
      replace (N - Z.of_nat (S n) + 1) with (N - Z.of_nat n) in Gk by lia. rewrite IH in Gk. change (this (Q2Qc 0)) with 0%Q in Gk.
      apply Qc_is_canon. change (this (Q2Qc 0)) with 0%Q. set (a := this (e (N - Z.of_nat (S n)))) in *. clearbody a. nra. }
  specialize (G (Z.to_nat (N - k))). rewrite Z2Nat.id in G by lia. replace (N - (N - k)) with k in G by lia. apply G. lia.
Qed.
End Unique.

Section UniqueSpline.
Context (y : Z -> Qc) (N : Z).
Ltac fld := qc; field; repeat split; try exact nz_2; try exact nz_3; try discriminate.
(** The second derivatives at the knots. *)
Definition knot (c : Z -> cubic) (i : Z) : Qc := if i <? N then bend (c i) 0 else 0%Qc.
Lemma knot_next c i : natural_spline y N c -> 0 <= i < N -> bend (c i) 1 = knot c (i + 1).
Proof.
  intros (S1 & S2 & S3) Hi. unfold knot. destruct (Z.ltb_spec (i + 1) N); [apply S2; lia|].
  replace i with (N - 1) by lia. apply S3. lia.
Qed.
Lemma cubic_of c i : natural_spline y N c -> 0 <= i < N -> c i = piece y (knot c) i.
Proof.
  intros Sp Hi. pose proof (knot_next c i Sp Hi) as K. pose proof Sp as (S1 & S2 & S3). destruct (S1 i Hi) as [E0 E1].
  assert (K0 : knot c i = bend (c i) 0). { unfold knot. destruct (Z.ltb_spec i N); [reflexivity|lia]. }
  unfold piece. rewrite K0, <- K, <- E0, <- E1. unfold eval, bend, three, two. destruct (c i) as [a b d f]. cbn [c0 c1 c2 c3].
  f_equal; fld.
Qed.
Lemma knot_eq c k : natural_spline y N c -> 1 <= k < N ->
  (knot c (k - 1)%Z + (1 + 1) * (1 + 1) * knot c k + knot c (k + 1)%Z = (1 + 1) * (1 + (1 + 1)) * dd y k)%Qc.
Proof.
  intros Sp Hk. pose proof Sp as (S1 & S2 & S3). destruct (S2 (k - 1) ltac:(lia)) as [Sl _]. replace (k - 1 + 1) with k in Sl by lia.
  rewrite (cubic_of c (k - 1) Sp), (cubic_of c k Sp) in Sl by lia. unfold slope, piece, three, two in Sl. cbn [c0 c1 c2 c3] in Sl.
  replace (k - 1 + 1) with k in Sl by lia. unfold dd. set (a := knot c (k - 1)) in *. set (b := knot c k) in *. set (d := knot c (k + 1)) in *.
  set (u := y (k - 1)) in *. set (v := y k) in *. set (x := y (k + 1)) in *. clearbody a b d u v x.
  match type of Sl with ?l = ?r => assert (X : ((1 + 1) * (1 + (1 + 1)) * (l - r) = 0)%Qc) by (rewrite Sl; ring) end.
  apply (f_equal (fun z => ((1 + 1) * (1 + (1 + 1)) * (x - (1 + 1) * v + u) + z)%Qc)) in X. rewrite Qcplus_0_r in X. rewrite <- X. fld.
Qed.
Lemma knot_0 c : natural_spline y N c -> knot c 0 = 0%Qc.
Proof. intros (_ & _ & S3). unfold knot. destruct (Z.ltb_spec 0 N); auto. apply S3. lia. Qed.
Lemma spline_unique c c' : natural_spline y N c -> natural_spline y N c' -> forall i, 0 <= i < N -> c i = c' i.
Proof.
  intros Sc Sc' i Hi. rewrite (cubic_of c i Sc Hi), (cubic_of c' i Sc' Hi).
  assert (K : forall k, 0 <= k <= N -> knot c k = knot c' k).
  { intros k Hk. pose proof (all_zero (fun k => knot c k - knot c' k)%Qc N) as Z0.
    assert (Z1 : (knot c k - knot c' k = 0)%Qc).
    { apply Z0; auto.
      - rewrite (knot_0 c Sc), (knot_0 c' Sc'). ring.
      - unfold knot. destruct (Z.ltb_spec N N); [lia|]. ring.
      - intros j Hj. pose proof (knot_eq c j Sc Hj) as E1. pose proof (knot_eq c' j Sc' Hj) as E2.
        replace (knot c (j - 1)%Z - knot c' (j - 1)%Z + (1 + 1) * (1 + 1) * (knot c j - knot c' j) + (knot c (j + 1)%Z - knot c' (j + 1)%Z))%Qc
          with ((knot c (j - 1)%Z + (1 + 1) * (1 + 1) * knot c j + knot c (j + 1)%Z) - (knot c' (j - 1)%Z + (1 + 1) * (1 + 1) * knot c' j + knot c' (j + 1)%Z))%Qc by ring.
        rewrite E1, E2. ring. }
    replace (knot c k) with (knot c' k + (knot c k - knot c' k))%Qc by ring. rewrite Z1. ring. }
  unfold piece. now rewrite !K by lia.
Qed.
End UniqueSpline.
