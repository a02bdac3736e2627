(** The change of periodicity: linear stocks, exact arithmetic, and the round trip. *)
From Coq Require Import ZArith Ascii String List Bool Lia QArith Qcanon.
From Verif Require Import M_Base M_Time M_Names M_Lex M_Compile M_Bytes M_Exec M_Exact M_Kdb M_Vars M_Freq S_Time S_Vars S_Freq
  L_Time L_Names L_Kdb L_Vars L_Vars2 L_Vars5 L_Freq L_Freq2 L_Freq3 L_Freq4 L_Freq5.
Import ListNotations.
Open Scope Z_scope.
Local Arguments Z.add : simpl never.
Local Arguments Z.sub : simpl never.
Local Arguments Z.mul : simpl never.

(** * Rationals *)
Lemma qz_this z : (this (q_ofZ z) == inject_Z z)%Q.
Proof. unfold q_ofZ. cbn [this Q2Qc]. apply Qred_correct. Qed.
Lemma qz_add a b : q_ofZ (a + b) = Qcplus (q_ofZ a) (q_ofZ b).
Proof.
  apply Qc_is_canon. unfold Qcplus. rewrite qz_this. unfold Q2Qc at 1. cbn [this]. rewrite Qred_correct, !qz_this. now rewrite inject_Z_plus.
Qed.
Lemma qz_mul a b : q_ofZ (a * b) = Qcmult (q_ofZ a) (q_ofZ b).
Proof.
  apply Qc_is_canon. unfold Qcmult. rewrite qz_this. unfold Q2Qc at 1. cbn [this]. rewrite Qred_correct, !qz_this. now rewrite inject_Z_mult.
Qed.
Lemma qz_inj a b : q_ofZ a = q_ofZ b -> a = b.
Proof. intros H. assert (E : Qeq (inject_Z a) (inject_Z b)) by (rewrite <- (qz_this a), H; apply qz_this).
  unfold Qeq, inject_Z in E. cbn in E. lia. Qed.
Lemma qz_nz m : m <> 0 -> q_ofZ m <> q_ofZ 0.
Proof. intros H E. apply H, qz_inj, E. Qed.
Lemma qz_0 : q_ofZ 0 = Q2Qc 0. Proof. reflexivity. Qed.
Lemma qz_1 : q_ofZ 1 = Q2Qc 1. Proof. reflexivity. Qed.

Lemma fold_const x n : forall acc, fold_left Qcplus (repeat x n) acc = Qcplus acc (Qcmult (q_ofZ (Z.of_nat n)) x).
Proof.
  induction n as [|n IH]; intros acc.
  - cbn [repeat fold_left]. change (Z.of_nat 0) with 0. rewrite qz_0. ring.
  - cbn [repeat fold_left]. rewrite IH. replace (Z.of_nat (S n)) with (Z.of_nat n + 1) by lia. rewrite qz_add, qz_1. ring.
Qed.
Lemma total_const (x : F exactly) m : 0 < m -> q_num x = true -> total exactly (repeat x (Z.to_nat m)) = Qcmult (q_ofZ m) x.
Proof.
  intros Hm Hx. unfold total.
  assert (X : forallb (num exactly) (repeat x (Z.to_nat m)) = true).
  { apply forallb_forall. intros y Hy. apply repeat_spec in Hy. now subst. }
  rewrite X. change (fold_left Qcplus (repeat x (Z.to_nat m)) (q_ofZ 0) = Qcmult (q_ofZ m) x).
  rewrite fold_const, Z2Nat.id by lia. rewrite qz_0. ring.
Qed.
Lemma total_na m : 0 < m -> total exactly (repeat q_na (Z.to_nat m)) = q_na.
Proof. intros Hm. unfold total. replace (Z.to_nat m) with (S (Z.to_nat (m - 1))) by lia. reflexivity. Qed.
Lemma num_iff x : q_num x = true <-> Qcle (q_ofZ (- 10 ^ 37)) x.
Proof.
  unfold q_num, q_lt, Qcle. unfold Qccompare.
  rewrite negb_true_iff. destruct (Qcompare_spec (this x) (this (q_ofZ (- 10 ^ 37)))) as [E|E|E].
  - split; auto. intros _. rewrite E. apply Qle_refl.
  - split; [discriminate|]. intros H. exfalso. apply (Qlt_not_le _ _ E H).
  - split; auto. intros _. now apply Qlt_le_weak.
Qed.
Lemma divide_num x m : 0 < m -> q_num x = true -> q_num (Qcdiv x (q_ofZ m)) = true.
Proof.
  intros Hm Hx. apply num_iff in Hx. apply num_iff.
  assert (Pm : (0 < this (q_ofZ m))%Q). { rewrite qz_this. unfold Qlt, inject_Z. cbn. lia. }
  assert (G : Qcle (Qcmult (q_ofZ (- 10 ^ 37)) (q_ofZ m)) (Qcmult (Qcdiv x (q_ofZ m)) (q_ofZ m))).
  { replace (Qcmult (Qcdiv x (q_ofZ m)) (q_ofZ m)) with x by (field; rewrite <- qz_0; apply qz_nz; lia).
    eapply Qcle_trans; [|exact Hx]. rewrite <- qz_mul. unfold Qcle. rewrite !qz_this.
    unfold Qle, inject_Z. cbn [Qnum Qden]. lia. }
  apply Qcmult_lt_0_le_reg_r with (z := q_ofZ m) in G; auto.
Qed.
Lemma converted_flow (x : F exactly) m : 0 < m -> q_num x = true -> total exactly (repeat (converted exactly LTOH_FLOW m x) (Z.to_nat m)) = x.
Proof.
  intros Hm Hx. cbn [converted dvd exactly ofZ]. rewrite total_const by (auto; apply divide_num; auto).
  change (Qcmult (q_ofZ m) (Qcdiv x (q_ofZ m)) = x). field. rewrite <- qz_0. apply qz_nz. lia.
Qed.
Lemma mean_const (x : F exactly) m : 0 < m -> q_num (Qcmult (q_ofZ m) x) = true -> q_num x = true -> aggregated exactly HTOL_MEAN (repeat x (Z.to_nat m)) = x.
Proof.
  intros Hm Hmx Hx. cbn [aggregated]. rewrite total_const by auto. cbn [num exactly]. rewrite Hmx. rewrite repeat_length, Z2Nat.id by lia.
  change (Qcdiv (Qcmult (q_ofZ m) x) (q_ofZ m) = x). field. rewrite <- qz_0. apply qz_nz. lia.
Qed.

(** The value between two anchors. *)
Lemma ylin_between v f k m x x' : 0 < k < m -> read exactly v f = Some x -> read exactly v (f + 1) = Some x' ->
  q_num x = true -> q_num x' = true ->
  ylin exactly v f k m = Ok (Qcplus x (Qcdiv (Qcmult (Qcminus x' x) (q_ofZ k)) (q_ofZ m))).
Proof.
  intros Hk R1 R2 N1 N2. unfold ylin. rewrite Z.div_small by lia. replace (f + 0) with f by lia.
  unfold get_at. rewrite R1. cbn [rbind num exactly]. rewrite N1, R2. cbn [rbind]. rewrite N2.
  cbn [M_Exec.add sub mul dvd ofZ exactly]. f_equal. rewrite qz_add, qz_1. field. rewrite <- qz_0. apply qz_nz. lia.
Qed.
Lemma ylin_anchor v f m x x' : 0 < m -> read exactly v (f + 1) = Some x -> read exactly v (f + 2) = Some x' -> q_num x = true ->
  ylin exactly v f m m = Ok (if q_num x' then x else q_na).
Proof.
  intros Hm R1 R2 N1. unfold ylin. rewrite Z.div_same by lia. replace (f + 1 + 1) with (f + 2) by lia.
  unfold get_at. rewrite R1. cbn [rbind num exactly]. rewrite N1, R2. cbn [rbind]. destruct (q_num x'); [|reflexivity].
  cbn [M_Exec.add sub mul dvd ofZ exactly]. f_equal. replace 2 with (1 + 1) by reflexivity. rewrite !qz_add, qz_1. field. rewrite <- qz_0. apply qz_nz. lia.
Qed.

Lemma map_vars_ub A (g : list (F A) -> res (list (F A))) l : (forall n v, In (n, v) l -> g v <> Throw) ->
  (exists n v, In (n, v) l /\ g v = UB) -> map_vars A g l = UB.
Proof.
  induction l as [|[n v] l IH]; intros H (n' & v' & Hin & E); [contradiction|].
  unfold map_vars in *. cbn [mapM fst snd]. destruct (g v) as [w| |] eqn:Eg; cbn [rbind]; auto.
  - rewrite IH; auto; [intros; apply (H n0); right; auto|]. destruct Hin as [X|X]; [inversion X; congruence|eauto].
  - exfalso. apply (H n v (or_introl eq_refl) Eg).
Qed.

Section Stock.
Context (A : arith) (from : vdb A) (ws : sample) (m fn : Z).
Notation F := (F A). Notation na := (na A). Notation num := (num A).
Hypothesis R : regular A from.
Hypothesis Hf : sub_periods (per (s_start (v_smp from))) fn.
Hypothesis Hw : sub_periods (per (s_start ws)) (m * fn).
Hypothesis Hm : 1 < m.
Hypothesis Ys : year_start (v_smp from).
Hypothesis Fi : fits (per (s_start ws)) (v_smp from).
Notation fs := (v_smp from).

Lemma ends_pair n v : find n (v_vars from) = Some v -> (ends_with_numbers A from n <-> pair_at A v (s_nb fs - 2) = true).
Proof.
  intros Hv. pose proof R as (Ok_ & ND & Len). destruct (ok_ord fs _ Ok_ Hf) as (V1 & V2 & P & B & O).
  pose proof (Len _ _ (find_In _ _ _ Hv)) as Lv.
  assert (He : sub_periods (per (s_end fs)) fn) by (rewrite P; auto). pose proof (valid_inv _ _ V2 He) as Be.
  assert (Ve : value A from n (s_end fs) = read A v (s_nb fs - 1)).
  { rewrite (value_read A _ fn n v) by auto. f_equal. lia. }
  unfold pair_at. replace (s_nb fs - 2 + 1) with (s_nb fs - 1) by lia. split.
  - intros (p & x & x' & Vp & Fo & Vx & Nx & Vx' & Nx'). rewrite Ve in Vx'.
    destruct (value_has _ _ _ _ _ Vx) as [_ [i Pi]]. pose proof (position_per _ _ _ Pi) as Ep.
    assert (Hp : sub_periods (per p) fn) by (rewrite Ep; auto). apply (follows_ord p _ fn Vp Hp) in Fo. destruct Fo as (_ & _ & O1).
    rewrite (value_read A _ fn n v) in Vx by auto. replace (ord fn p - ord fn (s_start fs)) with (s_nb fs - 2) in Vx by lia.
    unfold isnum. rewrite Vx, Vx', Nx, Nx'. reflexivity.
  - intros H. apply andb_true_iff in H. destruct H as [I1 I2]. destruct (isnum_in _ _ _ I1) as (B1 & x & Rx & Nx), (isnum_in _ _ _ I2) as (B2 & x' & Rx' & Nx').
    destruct (shift_spec (s_end fs) (-1) fn He Be) as (p & Ep & Pp & Bp & Op).
    assert (Hp : sub_periods (per p) fn) by (rewrite Pp; auto). assert (Vp : valid_period p) by (exists fn; auto).
    exists p, x, x'. split; auto. split. { apply (follows_ord p _ fn Vp Hp). repeat split; auto. lia. }
    rewrite (value_read A _ fn n v) by (auto; congruence). replace (ord fn p - ord fn (s_start fs)) with (s_nb fs - 2) by lia.
    rewrite Ve. auto.
Qed.

Lemma ltoh_stock_ub n : has A from n -> ends_with_numbers A from n -> ltoh A LTOH_LIN LTOH_STOCK from ws = UB.
Proof.
  intros Hn He. pose proof R as (Ok_ & ND & Len). destruct (find_some_in A n _ Hn) as [v Hv]. apply (ends_pair n v Hv) in He.
  destruct (ltoh_smpl_ok fs ws m fn Ok_ Hf Hw Hm Ys Fi) as (E & Okt & Le & Ot). cbn zeta in *.
  set (t := mkS _ _ _) in *. unfold ltoh. rewrite E. cbn [rbind].
  rewrite (map_vars_ub A (ltoh_vector A LTOH_LIN LTOH_STOCK m (s_nb fs) (s_nb t)) (v_vars from)); [reflexivity| |].
  - intros k w Hin C. destruct (pair_at A w (s_nb fs - 2)) eqn:Ep.
    + rewrite (lin_stock_past A m (s_nb fs) (s_nb t) w) in C; try discriminate; try lia; auto.
    + destruct (lin_stock_vector A m (s_nb fs) (s_nb t) w) as (to & Et & _); try lia; auto; try (symmetry; exact (Len _ _ Hin)); congruence.
  - exists n, v. split; [now apply find_In|]. apply lin_stock_past; try lia; auto; symmetry; apply (Len n); now apply find_In.
Qed.
End Stock.

(** Linear stock in exact arithmetic, when no variable ends with two numbers. *)
Section Exact.
Context (from : vdb exactly) (ws : sample) (m fn : Z).
Notation A := exactly.
Hypothesis R : regular A from.
Hypothesis Hf : sub_periods (per (s_start (v_smp from))) fn.
Hypothesis Hw : sub_periods (per (s_start ws)) (m * fn).
Hypothesis Hm : 1 < m.
Hypothesis Ys : year_start (v_smp from).
Hypothesis Fi : fits (per (s_start ws)) (v_smp from).
Notation fs := (v_smp from).
Lemma ltoh_stock_ok : (forall n, has A from n -> ~ ends_with_numbers A from n) ->
  exists to, ltoh A LTOH_LIN LTOH_STOCK from ws = Ok to /\ regular A to /\
  per (s_start (v_smp to)) = per (s_start ws) /\ keys (v_vars to) = keys (v_vars from) /\ begins m (v_smp to) /\
  (forall p q k, in_sample A from p -> part m p q k -> in_sample A to q) /\
  forall n p p' q k x x', valid_period p -> shift p 1 = Ok p' -> part m p' q k -> in_sample A to q ->
    value A from n p = Some x -> q_num x = true -> value A from n p' = Some x' -> q_num x' = true ->
    (k < m -> value A to n q = Some (Qcplus x (Qcdiv (Qcmult (Qcminus x' x) (q_ofZ k)) (q_ofZ m)))) /\
    (forall p'' x'', k = m -> shift p' 1 = Ok p'' -> value A from n p'' = Some x'' ->
       value A to n q = Some (if q_num x'' then x' else q_na)).
Proof.
  intros Hn. pose proof R as (Ok_ & ND & Len).
  set (G := fun v u => if pair_at A v (u / m - 1) then match ylin A v (u / m - 1) (u mod m + 1) m with Ok x => x | _ => q_na end else q_na).
  assert (NP : forall n v, In (n, v) (v_vars from) -> pair_at A v (s_nb fs - 2) = false).
  { intros n v Hin. destruct (pair_at A v (s_nb fs - 2)) eqn:Ep; auto. exfalso.
    assert (Hv : find n (v_vars from) = Some v) by (apply In_find; auto; apply sorted_NoDup; exact ND).
    apply (ends_pair A from fn R Hf n v Hv) in Ep. apply (Hn n); auto. unfold has. apply in_map_iff. exists (n, v). auto. }
  destruct (ltoh_smpl_ok fs ws m fn Ok_ Hf Hw Hm Ys Fi) as (E & Okt & Le & Ot). cbn zeta in *.
  set (t := mkS _ _ _) in *. assert (Ht : sub_periods (per (s_start t)) (m * fn)) by exact Hw.
  destruct (ok_ord t _ Okt Ht) as (Vt1 & Vt2 & Pt & Bt & OtE).
  destruct (ok_ord fs _ Ok_ Hf) as (V1 & V2 & P & B & O).
  assert (HG : forall n v, In (n, v) (v_vars from) -> exists to, ltoh_vector A LTOH_LIN LTOH_STOCK m (s_nb fs) (s_nb t) v = Ok to /\
     Z.of_nat (length to) = s_nb t /\ forall u, 0 <= u < s_nb t -> read A to u = Some (G v u)).
  { intros n v Hin. destruct (lin_stock_vector A m (s_nb fs) (s_nb t) v) as (to & Et & Lt & Rd); try lia; try (symmetry; exact (Len _ _ Hin)); try exact (NP _ _ Hin).
    exists to. split; auto. split; auto. intros u Hu. destruct (Rd u Hu) as (x & Rx & C). rewrite Rx. unfold G.
    destruct (pair_at A v (u / m - 1)); [now rewrite C|now rewrite C]. }
  unfold ltoh. rewrite E. cbn [rbind].
  destruct (map_vars_ok A (ltoh_vector A LTOH_LIN LTOH_STOCK m (s_nb fs) (s_nb t)) (v_vars from)) as (l & El & Kl & Fl & Bl).
  { intros n v Hin. destruct (HG n v Hin) as (to & Et & _). eauto. }
  rewrite El. cbn [rbind]. eexists. split; [reflexivity|].
  assert (Rt : regular A (mkVdb t l)).
  { split; [exact Okt|]. split; cbn [v_vars v_smp]; [rewrite Kl; exact ND|]. intros n v' Hin. destruct (Bl _ _ Hin) as (v & Hv & Ev).
    destruct (HG n v Hv) as (to & Et & Lt & _). rewrite Et in Ev. inversion Ev; subst. exact Lt. }
  split; [exact Rt|]. split; [reflexivity|]. split; [exact Kl|]. split; [|split].
  - exists (s_start fs). split; auto. exists fn. cbn. repeat split; auto; try lia. unfold year_start in Ys. rewrite Ys. lia.
  - intros p q k Ip Pq. apply (between_ord fs _ _ Ok_ Hf) in Ip. destruct Ip as (Vp & Ep & Bp).
    assert (Hp : sub_periods (per p) fn) by (rewrite Ep; auto).
    destruct (part_ord m p q k fn Hp Pq ltac:(lia)) as (Hq & K & Oq). pose proof (part_valid _ _ _ _ Vp Pq) as Vq.
    unfold in_sample. cbn [v_smp]. apply (between_ord t _ _ Okt Ht). split; auto. split; [eapply sub_inj; eauto|]. rewrite OtE, Ot. nia.
  - intros n p p' q k x x' Vp Sh Pq Iq Vx Nx Vx' Nx'.
    destruct (value_has _ _ _ _ _ Vx) as [Hh [i Pi]]. pose proof (position_per _ _ _ Pi) as Ep.
    assert (Hp : sub_periods (per p) fn) by (rewrite Ep; auto).
    destruct (shift_spec p 1 fn Hp (valid_inv _ _ Vp Hp)) as (p1 & E1 & P1 & B1 & O1). rewrite Sh in E1. injection E1 as <-.
    destruct (find_some_in A n _ Hh) as [v Hv]. destruct (Fl n v Hv) as (v' & Hv' & Ev).
    destruct (HG n v (find_In _ _ _ Hv)) as (to & Et & Lt & Rd). rewrite Et in Ev. inversion Ev; subst to.
    unfold in_sample in Iq. cbn [v_smp] in Iq. apply (between_ord t _ _ Okt Ht) in Iq. destruct Iq as (Vq & Eq & Bq).
    assert (Hp' : sub_periods (per p') fn) by (rewrite P1; auto).
    destruct (part_ord m p' q k fn Hp' Pq ltac:(lia)) as (Hq & K & Oq).
    assert (Vt : value A (mkVdb t l) n q = Some (G v (m * (ord fn p' - ord fn (s_start fs)) + (k - 1)))).
    { rewrite (value_read A _ (m * fn) n v' q Rt) by auto. cbn [v_smp]. rewrite Rd by lia. do 2 f_equal. lia. }
    rewrite Vt. clear Vt. unfold G. destruct (part_div m (ord fn p' - ord fn (s_start fs)) k) as [-> ->]; auto; try lia.
    rewrite (value_read A _ fn n v) in Vx, Vx' by (auto; congruence).
    set (f := ord fn p - ord fn (s_start fs)) in *.
    replace (ord fn p' - ord fn (s_start fs)) with (f + 1) in * by (unfold f; lia). replace (f + 1 - 1) with f by lia. replace (k - 1 + 1) with k by lia.
    unfold pair_at, isnum. rewrite Vx, Vx'. cbn [num exactly]. rewrite Nx, Nx'. cbn [andb]. split.
    + intros Hk. rewrite (ylin_between v f k m x x') by (auto; lia). reflexivity.
    + intros p'' x'' -> Sh'' Vx''. destruct (shift_spec p' 1 fn Hp' B1) as (p2 & E2 & P2 & B2 & O2). rewrite Sh'' in E2. injection E2 as <-.
      rewrite (value_read A _ fn n v) in Vx'' by (auto; congruence). replace (ord fn p'' - ord fn (s_start fs)) with (f + 2) in Vx'' by (unfold f; lia).
      rewrite (ylin_anchor v f m x' x'') by (auto; lia). reflexivity.
Qed.
End Exact.

(** * The converted sample is within the years of the source *)
Lemma year_ord nb y q : 1 <= M_Time.step q <= nb -> (nb * y + 1 <= ord nb q -> y <= year q) /\ (ord nb q <= nb * y + nb -> year q <= y).
Proof. intros B. unfold ord. split; intros H.
  - destruct (Z.leb_spec y (year q)); auto. nia.
  - destruct (Z.leb_spec (year q) y); auto. nia.
 Qed.
Lemma htol_years A meth (from : vdb A) ws m wn : regular A from -> sub_periods (per (s_start ws)) wn ->
  sub_periods (per (s_start (v_smp from))) (m * wn) -> 1 < m -> wn = 1 \/ begins m (v_smp from) ->
  forall to, htol A meth from ws = Ok to -> forall q, in_sample A to q -> year (s_start (v_smp from)) <= year q <= year (s_end (v_smp from)).
Proof.
  intros R Hw Hf Hm D to E q I. pose proof R as (Ok_ & ND & Len).
  destruct (htol_values A meth from ws m wn R Hw Hf Hm D to E) as ((Okt & _) & Pt & _).
  destruct (htol_core A meth from ws m wn R Hw Hf Hm D) as (p1 & skip & Bs & V1 & P1 & O1 & N & Y).
  destruct (ok_ord (v_smp from) _ Ok_ Hf) as (Vs & Ve & Pe & B & O). pose proof (valid_inv _ _ Vs Hf) as Bss.
  set (p2 := last_of (per (s_start ws)) wn (v_smp from)) in *.
  destruct (Z.ltb_spec (ord wn p2) (ord wn p1)) as [C|C]; [rewrite (N C) in E; discriminate|].
  destruct (Y C) as (l & El & _). rewrite El in E. injection E as <-. unfold in_sample in I. cbn [v_smp] in I, Okt.
  apply (between_ord _ wn _ Okt) in I; [|cbn [s_start]; rewrite P1; auto]. cbn [s_start s_end] in I. destruct I as (Vq & Eq & Bq).
  pose proof (valid_inv q wn Vq ltac:(rewrite Eq, P1; auto)) as Bsq. pose proof (sub_pos _ _ Hw).
  assert (O2 : ord wn p2 = wn * year (s_end (v_smp from)) + wn) by reflexivity.
  assert (Os : ord (m * wn) (s_start (v_smp from)) = m * wn * year (s_start (v_smp from)) + M_Time.step (s_start (v_smp from))) by reflexivity.
  assert (L1 : wn * year (s_start (v_smp from)) + 1 <= ord wn p1) by nia.
  split; [apply (year_ord wn _ q Bsq); lia|apply (year_ord wn _ q Bsq); lia].
Qed.
Lemma ltoh_years A meth ty (from : vdb A) ws m fn : regular A from -> sub_periods (per (s_start (v_smp from))) fn ->
  sub_periods (per (s_start ws)) (m * fn) -> 1 < m -> year_start (v_smp from) -> fits (per (s_start ws)) (v_smp from) ->
  forall to, ltoh A meth ty from ws = Ok to -> forall q, in_sample A to q -> year (s_start (v_smp from)) <= year q <= year (s_end (v_smp from)).
Proof.
  intros R Hf Hw Hm Ys Fi to E q I. pose proof R as (Ok_ & ND & Len).
  destruct (ltoh_smpl_ok (v_smp from) ws m fn Ok_ Hf Hw Hm Ys Fi) as (Es & Okt & Le & Ot). cbn zeta in *.
  set (t := mkS _ _ _) in *. unfold ltoh in E. rewrite Es in E. cbn [rbind] in E.
  destruct (map_vars A _ (v_vars from)) as [l| |]; try discriminate. cbn [rbind] in E. injection E as <-.
  unfold in_sample in I. cbn [v_smp] in I. apply (between_ord t (m * fn) _ Okt Hw) in I. destruct I as (Vq & Eq & Bq).
  pose proof (valid_inv q (m * fn) Vq ltac:(rewrite Eq; exact Hw)) as Bsq. unfold t in Bq. cbn [s_start s_end] in Bq.
  unfold ord at 1 4 in Bq. cbn [year M_Time.step] in Bq. split; [apply (year_ord (m * fn) _ q Bsq); lia|apply (year_ord (m * fn) _ q Bsq); lia].
Qed.

(** * The variables that are not in the source *)
Lemma map_vars_keys A g l : forall l', map_vars A g l = Ok l' -> keys l' = keys l.
Proof.
  induction l as [|[n v] l IH]; intros l' H; unfold map_vars in *; cbn [mapM fst snd] in H.
  - injection H as <-. reflexivity.
  - destruct (g v); try discriminate. cbn [rbind] in H. destruct (mapM _ l) as [l1| |] eqn:E; try discriminate. cbn [rbind] in H. injection H as <-.
    unfold keys in *. cbn. f_equal. apply IH. reflexivity.
Qed.
Lemma merge_vars_other A nb n a b k : forall l ws ws', merge_vars A l nb n a b ws = Ok ws' -> ~ In k (keys l) -> find k ws' = find k ws.
Proof.
  induction l as [|[k' v] l IH]; intros ws ws' H N; cbn [merge_vars] in H.
  - injection H as <-. reflexivity.
  - destruct (copy_range A _ _ v a b) as [new|]; [|discriminate]. change (keys ((k', v) :: l)) with (k' :: keys l) in N.
    rewrite (IH _ _ H) by (intros X; apply N; right; auto). rewrite find_put.
    destruct (str_eqb k k') eqn:Ek; auto. apply str_eqb_iff in Ek. subst. exfalso. apply N. left. reflexivity.
Qed.
Lemma command_other A conv asked (from ws ws' : vdb A) : (forall s to, conv from s = Ok to -> keys (v_vars to) = keys (v_vars from)) ->
  command A conv asked (Some from) (Some ws) = Ok ws' ->
  v_smp ws' = v_smp ws /\ forall n, ~ has A from n -> find n (v_vars ws') = find n (v_vars ws).
Proof.
  intros K H. unfold command in H. destruct asked; [discriminate|]. destruct (conv from (v_smp ws)) as [to| |] eqn:E; try discriminate.
  cbn [rbind] in H. unfold merge_into in H. destruct (overlap _ _) as [[[n a] b]| |]; try discriminate. cbn [rbind] in H.
  destruct (merge_vars A (v_vars to) _ _ _ _ (v_vars ws)) as [l'| |] eqn:Em; try discriminate. cbn [rbind] in H. injection H as <-.
  split; [reflexivity|]. intros k Nk. cbn [v_vars]. eapply merge_vars_other; eauto. rewrite (K _ _ E). exact Nk.
Qed.
Lemma htol_keys A meth from s to : htol A meth from s = Ok to -> keys (v_vars to) = keys (v_vars from).
Proof.
  unfold htol. destruct (htol_smpl (v_smp from) s) as [[[[t skip] sh]|]| |]; try discriminate. cbn [rbind].
  destruct (map_vars A _ (v_vars from)) as [l| |] eqn:E; try discriminate. cbn [rbind]. intros H. injection H as <-. eapply map_vars_keys; eauto.
Qed.
Lemma ltoh_keys A meth ty from s to : ltoh A meth ty from s = Ok to -> keys (v_vars to) = keys (v_vars from).
Proof.
  unfold ltoh. destruct (ltoh_smpl (v_smp from) s) as [[[t sh]|]| |]; try discriminate. cbn [rbind].
  destruct (map_vars A _ (v_vars from)) as [l| |] eqn:E; try discriminate. cbn [rbind]. intros H. injection H as <-. eapply map_vars_keys; eauto.
Qed.
