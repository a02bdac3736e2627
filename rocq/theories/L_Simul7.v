(** The numerical solution of an equation; the list of the equations that do not converge. *)
From Coq Require Import ZArith List Bool Lia QArith Qcanon.
From Verif Require Import M_Base M_Names M_Bytes M_Exec M_Exact M_Order M_Exo2endo M_Vars M_Simul S_Order S_Simul
  L_Simul L_Simul2 L_Simul3 L_Simul4 L_Simul5.
Import ListNotations.
Open Scope Z_scope.

Section Newton.
Variable A : arith.
Variable Q : eqns A.
Variable P : params A.
Variables (e t v : Z).

Lemma set_set (s : values A) x y : forall w p, set (set s v t x) v t y w p = set s v t y w p.
Proof. intros w p. unfold set. now destruct (_ && _). Qed.
Lemma set_back (s : values A) w p : set s v t (s v t) w p = s w p.
Proof. unfold set. destruct (Z.eqb_spec w v) as [->|], (Z.eqb_spec p t) as [->|]; reflexivity. Qed.

Lemma loop_solves oldx shift tol n : forall x s,
  let '(s', y) := newton_loop A Q e t v n oldx shift tol x s in
  (num A y = true -> s' v t = y /\ num A (ev Q e s' t) = true /\ lt A (abs A (sub A (ev Q e s' t) shift)) tol = true) /\
  (num A y = false -> y = na A \/ s' v t = y) /\
  (forall w p, ~ (w = v /\ p = t) -> s' w p = s w p) /\ (y = na A /\ s' v t = oldx \/ s' v t = y).
Proof.
  induction n as [|n IH]; intros x s; cbn [newton_loop].
  { rewrite num_na, set_same. split; [discriminate|]. split; [auto|]. split; [intros w p H; now apply set_other|auto]. }
  assert (Er : forall s1 : values A, (forall w p, ~ (w = v /\ p = t) -> s1 w p = s w p) ->
    (num A (na A) = true -> set s1 v t oldx v t = na A /\ num A (ev Q e (set s1 v t oldx) t) = true /\
        lt A (abs A (sub A (ev Q e (set s1 v t oldx) t) shift)) tol = true) /\
    (num A (na A) = false -> na A = na A \/ set s1 v t oldx v t = na A) /\
    (forall w p, ~ (w = v /\ p = t) -> set s1 v t oldx w p = s w p) /\ (na A = na A /\ set s1 v t oldx v t = oldx \/ set s1 v t oldx v t = na A)).
  { intros s1 H1. rewrite num_na, set_same. split; [discriminate|]. split; [auto|]. split; [|auto].
    intros w p H. rewrite set_other by tauto. now apply H1. }
  assert (O1 : forall y w p, ~ (w = v /\ p = t) -> set s v t y w p = s w p) by (intros; apply set_other; tauto).
  destruct (num A (ev Q e (set s v t x) t)) eqn:E1; cbn [negb]; [|apply Er; auto].
  destruct (lt A (abs A (sub A (ev Q e (set s v t x) t) shift)) tol) eqn:E2.
  { rewrite set_same. split; [auto|]. split; [auto|]. split; auto. }
  set (h := if lt A (one A) (abs A x) then _ else _).
  assert (O2 : forall y w p, ~ (w = v /\ p = t) -> set (set s v t x) v t y w p = s w p) by (intros; rewrite set_set; auto).
  destruct (num A (ev Q e (set (set s v t x) v t (add A x h)) t)); cbn [negb]; [|apply Er; auto].
  destruct (lt A (abs A (sub A _ (sub A (ev Q e (set s v t x) t) shift))) _); [apply Er; auto|].
  match goal with |- context [newton_loop A Q e t v n oldx shift tol ?y ?s1] => specialize (IH y s1); set (y1 := y) in *; set (s2 := s1) in * end.
  revert IH. destruct (newton_loop A Q e t v n oldx shift tol y1 s2) as [s' y]. intros (H1 & H2 & H3 & H4).
  split; [exact H1|]. split; [exact H2|]. split; [|exact H4]. intros w p H. rewrite H3 by exact H. unfold s2. rewrite set_other by tauto. auto.
Qed.

Notation target := (target Q e t v).
Definition within (s : values A) (tol : F A) : Prop :=
  num A (ev Q e s t) = true /\ lt A (abs A (sub A (ev Q e s t) (target s))) tol = true.
Lemma sub_solves algo s : let '(s', x) := newton_sub A Q P e t v algo s in num A x = true ->
  s' v t = x /\ (forall w p, ~ (w = v /\ p = t) -> s' w p = s w p) /\
  exists tol, within s' tol /\
    (tol = newton_eps P \/ exists scale, (scale = s v t \/ scale = target s) /\ lt A (ofZ A 1) (abs A scale) = true /\ tol = mul A (newton_eps P) (abs A scale)).
Proof.
  unfold newton_sub. destruct (num A (s v t)) eqn:E1; cbn [negb]; [|rewrite num_na; discriminate].
  destruct (negb (direct A Q e v) && negb (num A (shift_of A Q e t v s))) eqn:E2; [rewrite num_na; discriminate|].
  match goal with |- context [newton_loop A Q e t v _ _ _ ?tol _ _] => set (tl := tol) end.
  assert (L := loop_solves (s v t) (shift_of A Q e t v s) tl (newton_maxit P) (s v t) s).
  revert L. destruct (newton_loop A Q e t v _ _ _ tl _ s) as [s' x]. intros L. destruct L as (H1 & _ & H3 & _). intros Hn.
  destruct (H1 Hn) as (K1 & K2 & K3). split; [exact K1|]. split; [exact H3|]. exists tl. split.
  - split; [exact K2|]. replace (target s') with (shift_of A Q e t v s); [exact K3|].
    unfold shift_of, S_Simul.target, direct. destruct (Z.eqb_spec v (own Q e)) as [E|E]; [reflexivity|]. cbn [orb].
    destruct (dup Q e); [reflexivity|]. symmetry. apply H3. intros [E' _]. congruence.
  - unfold tl. match goal with |- context [if algo && ?b then _ else _] => destruct (algo && b) eqn:E3 end; [|now left]. right. apply andb_true_iff in E3 as [_ E3].
    eexists. split; [|split; [exact E3|reflexivity]].
    unfold S_Simul.target. fold (direct A Q e v). unfold shift_of. destruct (direct A Q e v); auto.
Qed.

(** On failure, the variables are as before. *)
Lemma sub_fails algo s : let '(s', x) := newton_sub A Q P e t v algo s in num A x = false -> x = na A ->
  forall w p, s' w p = s w p \/ (w = v /\ p = t /\ s' v t = na A).
Proof.
  unfold newton_sub. destruct (num A (s v t)) eqn:E1; cbn [negb]; [|auto].
  destruct (negb (direct A Q e v) && negb (num A (shift_of A Q e t v s))) eqn:E2; [auto|].
  match goal with |- context [newton_loop A Q e t v _ _ _ ?tol _ _] => set (tl := tol) end.
  assert (L := loop_solves (s v t) (shift_of A Q e t v s) tl (newton_maxit P) (s v t) s).
  revert L. destruct (newton_loop A Q e t v _ _ _ tl _ s) as [s' x]. intros L. destruct L as (_ & _ & H3 & H4). intros Hn -> w p.
  destruct (Z.eq_dec w v) as [->|a]; [destruct (Z.eq_dec p t) as [->|b]|]; [|left; apply H3; tauto..].
  destruct H4 as [[_ K]|K]; [auto|]. right. auto.
Qed.

Lemma newton_solves s : let '(s', x) := newton A Q P e t v s in num A x = true ->
  s' v t = x /\ (forall w p, ~ (w = v /\ p = t) -> s' w p = s w p) /\
  exists tol, within s' tol /\
    (tol = newton_eps P \/
     exists scale, (scale = s v t \/ scale = target s) /\ lt A (ofZ A 1) (abs A scale) = true /\ tol = mul A (newton_eps P) (abs A scale)).
Proof.
  unfold newton. assert (H := sub_solves false s). revert H. destruct (newton_sub A Q P e t v false s) as [s1 x] eqn:E1. intros H. cbn [fst snd].
  destruct (num A x) eqn:En; [intros _; now apply H|]. clear H.
  (* the first attempt failed *)
  assert (S1 : (forall w p, ~ (w = v /\ p = t) -> s1 w p = s w p) /\ (s1 v t = s v t \/ num A (s1 v t) = false)).
  { unfold newton_sub in E1. destruct (num A (s v t)) eqn:E2; cbn [negb] in E1; [|inversion E1; subst; auto].
    destruct (negb (direct A Q e v) && negb (num A (shift_of A Q e t v s))); [inversion E1; subst; auto|]. cbn [andb] in E1.
    assert (L := loop_solves (s v t) (shift_of A Q e t v s) (newton_eps P) (newton_maxit P) (s v t) s).
    rewrite E1 in L. destruct L as (_ & _ & H3 & H4). split; [exact H3|]. destruct H4 as [[_ K]|K]; [auto|]. right. now rewrite K. }
  assert (H := sub_solves true s1). revert H. destruct (newton_sub A Q P e t v true s1) as [s' y] eqn:E2. intros H Hn.
  destruct (H Hn) as (K1 & K2 & tol & K3 & K4). destruct S1 as [S1 S2].
  split; [exact K1|]. split; [intros w p Hw; rewrite K2, S1; auto|]. exists tol. split; [exact K3|].
  destruct K4 as [K4|(scale & K4 & K5 & K6)]; [now left|]. right. exists scale. split; [|auto].
  assert (Ev : num A (s1 v t) = true).
  { unfold newton_sub in E2. destruct (num A (s1 v t)); [reflexivity|]. cbn [negb] in E2. injection E2 as _ E2. rewrite <- E2, num_na in Hn. discriminate. }
  destruct S2 as [S2|S2]; [|congruence]. rewrite S2 in K4. destruct K4 as [K4|K4]; [auto|]. right. rewrite K4. unfold S_Simul.target.
  destruct (Z.eqb_spec v (own Q e)) as [E|E]; [reflexivity|]. cbn [orb]. destruct (dup Q e); [reflexivity|]. apply S1. intros [E' _]. congruence.
Qed.
End Newton.

(** * The list _DIVER *)

Section Far.
Local Open Scope Qc_scope.
Lemma pos_mul_iff a b c : 0 < c -> (a < b <-> a * c < b * c).
Proof.
  intros H. split; intros K; [now apply Qcmult_lt_compat_r|]. apply Qcnot_le_lt. intros L.
  apply (Qclt_not_le _ _ K). apply Qcmult_le_compat_r; [exact L|now apply Qclt_le_weak].
Qed.
Lemma change_far (P : params exactly) r v x N : tiny P = q_tiny -> 0 <= r ->
  N < change exactly P r v x <-> far N r v x.
Proof.
  intros T Hr. unfold change, is_zero, far. rewrite T. cbn [abs exactly sub mul dvd ofZ one].
  assert (Ea : q_abs (v - x) = q_abs (x - v)) by (replace (v - x) with (- (x - v)) by ring; apply q_abs_opp).
  change (abs exactly ?z) with (q_abs z). fold (q_abs (v - x)). rewrite Ea, (Qcmult_comm r).
  assert (Z0 : is_0 exactly q_tiny v = true <-> q_abs v < q_tiny).
  { unfold is_0. cbn [lt exactly ofZ is_nan neg]. rewrite <- q_lt_iff. rewrite q_0. destruct (q_lt 0 v) eqn:K.
    - apply q_lt_iff in K. destruct (q_abs_cases v) as [[_ ->]|[J _]]; [|exfalso; apply (Qclt_not_le _ _ K); now apply Qclt_le_weak].
      cbn [negb andb]. rewrite orb_false_r. tauto.
    - apply q_lt_false in K. cbn [negb andb orb]. destruct (q_abs_cases v) as [[J ->]|[_ ->]]; [|tauto].
      assert (v = 0) as -> by now apply Qcle_antisym. tauto. }
  destruct (is_0 exactly q_tiny v) eqn:E; cbn [negb].
  - destruct Z0 as [Z0 _]. specialize (Z0 eq_refl). tauto.
  - assert (Hv := zero_small v E). assert (Nz : ~ q_abs v < q_tiny) by (intros K; apply Z0 in K; discriminate).
    unfold M_Simul.min, one. cbn [lt exactly ofZ]. rewrite q_1. fold (q_abs (1 - x / v)).
    assert (Eq : q_abs (x - v) = q_abs (1 - x / v) * q_abs v).
    { rewrite <- Ea. assert (D : v - x = v * (1 - x / v)) by (field; exact Hv). rewrite D.
      destruct (q_abs_cases v) as [[J K]|[J K]].
      - rewrite q_abs_mul by exact J. rewrite K. ring.
      - rewrite K. replace (v * (1 - x / v)) with (- (- v * (1 - x / v))) by ring.
        rewrite q_abs_opp, q_abs_mul by (now apply opp_nonneg, Qclt_le_weak). ring. }
    assert (R : N * q_abs v < q_abs (x - v) * r <-> N < q_abs (1 - x / v) * r).
    { rewrite Eq. replace (q_abs (1 - x / v) * q_abs v * r) with (q_abs (1 - x / v) * r * q_abs v) by ring.
      symmetry. apply pos_mul_iff. now apply q_abs_nz. }
    destruct (q_lt (q_abs (x - v)) (q_abs (1 - x / v))) eqn:L.
    + apply q_lt_iff in L. split; [|tauto]. intros K. split; [exact K|]. right. apply R. eapply Qclt_le_trans; [exact K|].
      apply Qcmult_le_compat_r; [now apply Qclt_le_weak|exact Hr].
    + apply q_lt_false in L. split; [|tauto]. intros K. split; [|tauto]. eapply Qclt_le_trans; [exact K|].
      apply Qcmult_le_compat_r; [exact L|exact Hr].
Qed.
End Far.

Section Diver.
Variable f : Z -> values exactly -> Z -> Qc.
Variable d : Z -> bool.
Variable j : Qc.
Variable P : params exactly.
Variables (vars scl : list str) (eqs : list (str * list str)).
Variable m : model.
Variables (given : list str) (sort : sort_option) (o : ordering).
Hypothesis HB : built vars scl eqs [] m.
Hypothesis HS : sorted eqs m given sort o.
Notation Q := (equations_of exactly f d j vars eqs).
Variable t : Z.

Lemma diverge_plain es : Forall (fun e => dup Q e = false /\ own Q e = endo m e) es -> forall old s acc,
  let '(s', _, l) := diverge exactly Q P (endo m) t es old s acc in
  s' = s /\
  match l with
  | Some l => Forall (fun e => q_num (f e s t) = true) es /\
      l = acc ++ filter (fun e => q_num (s (endo m e) t) && q_lt (eps P) (change exactly P (relax P) (s (endo m e) t) (f e s t))) es
  | None => Exists (fun e => q_num (f e s t) = false) es
  end.
Proof.
  induction 1 as [|e es (D & O) _ IH]; intros old s acc; cbn [diverge].
  { split; [reflexivity|]. split; [constructor|]. now rewrite app_nil_r. }
  unfold calculate. rewrite D, O, Z.eqb_refl. cbn [orb negb]. change (ev Q e s t) with (f e s t). change (num exactly) with q_num.
  destruct (q_num (f e s t)) eqn:E; cbn [negb]; [|split; [reflexivity|now constructor]].
  match goal with |- context [diverge exactly Q P (endo m) t es (tl old) s ?a] => specialize (IH (tl old) s a); set (acc' := a) in * end.
  revert IH. destruct (diverge exactly Q P (endo m) t es (tl old) s acc') as [[s' xks] [l|]]; intros [-> IH]; (split; [reflexivity|]).
  - destruct IH as [F ->]. split; [now constructor|]. unfold acc'. cbn [filter]. change (num exactly) with q_num. change (lt exactly) with q_lt.
    destruct (_ && _); [now rewrite <- app_assoc|reflexivity].
  - now constructor 2.
Qed.

Notation inter := (part o (o_pre o) (o_inter o)).
Hypothesis Hplain : forall e, interdependent o e -> d (Z.of_nat e) = false.
Lemma inter_plain : Forall (fun e => dup Q e = false /\ own Q e = endo m e) inter.
Proof.
  destruct (sorted_order _ _ _ _ _ _ _ _ HB HS) as (Pm & B1 & B2 & B3 & Bs & _).
  apply Forall_forall. intros e He. assert (Ho : In e (o_order o)) by (eapply part_incl; eauto).
  apply (order_in m o Pm) in Ho as (k & -> & Hk). apply (part_in m o Pm) in He as (r & k' & E & Hr & Hb); try lia.
  apply Nat2Z.inj in E. subst k'. split; [apply Hplain; exists r; auto|].
  apply (own_endo exactly f d j vars scl eqs m k HB). rewrite <- (m_len vars scl eqs [] m HB). exact Hk.
Qed.
Lemma diver_list key s xk norm :
  let r := simulate_period exactly Q P m o key t s xk norm in r_stop r = TOO_LONG ->
  match diver r with
  | Some l => (forall e, interdependent o e -> q_num (f (Z.of_nat e) (r_s r) t) = true) /\
      (tiny P = q_tiny -> (q_ofZ 0 <= relax P)%Qc -> forall e, In (Z.of_nat e) l <->
         interdependent o e /\ exists v, endo_of m e v /\ q_num (r_s r v t) = true /\
           far (eps P) (relax P) (r_s r v t) (f (Z.of_nat e) (r_s r) t)) /\
      (tiny P = q_tiny -> (relax P < q_ofZ 0)%Qc -> (q_ofZ 0 <= eps P)%Qc -> l = [])
  | None => exists e, interdependent o e /\ q_num (f (Z.of_nat e) (r_s r) t) = false
  end.
Proof.
  destruct (sorted_order _ _ _ _ _ _ _ _ HB HS) as (Pm & B1 & B2 & B3 & Bs & _).
  destruct (built_linked _ _ _ _ _ HB) as (L & _).
  intros r H. unfold r, simulate_period, sub_simulate in *.
  destruct iterate as [[it i] why]. destruct why; try discriminate.
  assert (G := diverge_plain inter inter_plain (i_xk i) (restore exactly (endo m) t inter (i_xk i) (i_s i)) []).
  destruct diverge as [[s' xks] l]. cbn [diver r_s]. destruct G as [-> G]. set (s1 := restore exactly _ _ _ _ _) in *. clearbody s1.
  destruct l as [l|].
  - destruct G as [G ->]. cbn [app]. rewrite Forall_forall in G. split; [|split].
    + intros e He. apply G. now apply (in_inter vars scl eqs [] m given sort o HB HS).
    + intros T Hr e. rewrite filter_In, andb_true_iff, q_lt_iff, change_far by (rewrite ?q_0 in Hr; auto).
      split.
      * intros (Hin & Hn & Hf). apply (part_in m o Pm) in Hin as (k & e' & E & Hk & Hb); try lia. apply Nat2Z.inj in E. subst e'.
        split; [exists k; auto|]. exists (endo m (Z.of_nat e)). split; [|auto]. apply endo_spec; [exact L|].
        assert (Ho : In (Z.of_nat e) (o_order o)) by (eapply nth_error_In; eauto). apply (order_in m o Pm) in Ho as (k' & E & Hk'). lia.
      * intros (Hi & v & Hv & Hn & Hf). split; [now apply (in_inter vars scl eqs [] m given sort o HB HS)|].
        assert (E : endo m (Z.of_nat e) = v) by (unfold endo; rewrite Nat2Z.id; now apply nth_error_nth). rewrite E. auto.
    + intros T Hr He. 
      assert (F : forall es, filter (fun e => q_num (s1 (endo m e) t) && q_lt (eps P) (change exactly P (relax P) (s1 (endo m e) t) (f e s1 t))) es = []);
        [|apply F].
      induction es as [|e es IH]; [reflexivity|]. cbn [filter]. rewrite IH.
      replace (q_lt (eps P) _) with false; [now rewrite andb_false_r|]. symmetry. apply q_lt_false.
      apply Qcle_trans with (q_ofZ 0); [|exact He]. unfold change. cbn [mul exactly].
      assert (Pn : forall y z, (q_ofZ 0 <= y)%Qc -> (z < q_ofZ 0)%Qc -> (y * z <= q_ofZ 0)%Qc).
      { rewrite q_0. intros y z Hy Hz. assert (J := Qcmult_le_compat_r z 0 y (Qclt_le_weak _ _ Hz) Hy).
        rewrite Qcmult_0_l, Qcmult_comm in J. exact J. }
      apply Pn; [|exact Hr]. rewrite q_0. unfold M_Simul.min. change (abs exactly ?z) with (q_abs z).
      destruct (negb _); [destruct (lt exactly _ _)|]; apply q_abs_pos.
  - apply Exists_exists in G as (e & Hin & He). apply (part_in m o Pm) in Hin as (k & e' & -> & Hk & Hb); try lia.
    exists e'. split; [exists k; auto|exact He].
Qed.
End Diver.
