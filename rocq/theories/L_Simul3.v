(** Convergence in exact arithmetic. *)
From Coq Require Import ZArith List Bool Lia Permutation QArith Qcanon.
From Verif Require Import M_Base M_Names M_Bytes M_Exec M_Exact M_Order M_Exo2endo M_Vars M_Simul S_Order S_Simul L_Simul L_Simul2.
Import ListNotations.
Open Scope Z_scope.
Local Open Scope Qc_scope.

Lemma q_lt_iff x y : q_lt x y = true <-> x < y.
Proof. unfold q_lt. rewrite Qclt_alt. destruct (x ?= y); split; intros; congruence. Qed.
Lemma q_lt_false x y : q_lt x y = false <-> y <= x.
Proof.
  rewrite <- not_true_iff_false, q_lt_iff. split; intros H.
  - now apply Qcnot_lt_le.
  - intros K. now apply (Qclt_not_le _ _ K).
Qed.
Lemma q_le_iff x y : le exactly x y = true <-> x <= y.
Proof.
  unfold le. cbn. rewrite orb_true_iff, q_lt_iff. destruct (Qc_eq_dec x y) as [->|N].
  - split; [intros; apply Qcle_refl|auto].
  - split; [intros [H|H]; [now apply Qclt_le_weak|discriminate]|]. intros H. left. apply Qcle_lt_or_eq in H. tauto.
Qed.

Lemma q_0 : q_ofZ 0 = 0. Proof. now apply Qc_is_canon. Qed.
Lemma q_1 : q_ofZ 1 = 1. Proof. now apply Qc_is_canon. Qed.
Lemma q_abs_cases x : (0 <= x /\ q_abs x = x) \/ (x < 0 /\ q_abs x = - x).
Proof.
  unfold q_abs. rewrite q_0. destruct (q_lt x 0) eqn:E; [right|left]; [apply q_lt_iff in E|apply q_lt_false in E]; auto.
Qed.
Lemma opp_nonneg x : x <= 0 -> 0 <= - x.
Proof. intros H. apply Qcopp_le_compat in H. exact H. Qed.
Lemma q_abs_pos x : 0 <= q_abs x.
Proof. destruct (q_abs_cases x) as [[H ->]|[H ->]]; [exact H|]. now apply opp_nonneg, Qclt_le_weak. Qed.
Lemma q_abs_opp x : q_abs (- x) = q_abs x.
Proof.
  destruct (q_abs_cases x) as [[H ->]|[H ->]], (q_abs_cases (- x)) as [[K ->]|[K ->]]; try ring.
  - assert (x = 0) as ->; [|ring]. apply Qcle_antisym; [|exact H].
    assert (J := opp_nonneg (- x)). rewrite Qcopp_involutive in J. apply Qcopp_le_compat in K. rewrite Qcopp_involutive in K. exact K.
  - exfalso. assert (J := opp_nonneg x (Qclt_le_weak _ _ H)). now apply (Qclt_not_le _ _ K).
Qed.
Lemma q_abs_mul r x : 0 <= r -> q_abs (r * x) = r * q_abs x.
Proof.
  intros Hr. destruct (q_abs_cases x) as [[H ->]|[H ->]].
  - destruct (q_abs_cases (r * x)) as [[K ->]|[K ->]]; [reflexivity|].
    exfalso. apply (Qclt_not_le _ _ K). assert (J := Qcmult_le_compat_r 0 r x Hr H). now rewrite Qcmult_0_l in J.
  - destruct (q_abs_cases (r * x)) as [[K ->]|[K ->]]; [|ring].
    assert (J := Qcmult_le_compat_r 0 r (- x) Hr (opp_nonneg x (Qclt_le_weak _ _ H))). rewrite Qcmult_0_l in J.
    assert (E : r * x = 0).
    { apply Qcle_antisym; [|exact K]. apply Qcopp_le_compat in J. replace (- (r * - x)) with (r * x) in J by ring. exact J. }
    rewrite E. replace (r * - x) with (- (r * x)) by ring. rewrite E. ring.
Qed.
Lemma q_abs_nz x : x <> 0 -> 0 < q_abs x.
Proof.
  intros N. assert (H := q_abs_pos x). apply Qcle_lt_or_eq in H. destruct H as [H|H]; [exact H|]. exfalso. apply N.
  destruct (q_abs_cases x) as [[_ E]|[_ E]]; [congruence|]. rewrite E in H. rewrite <- (Qcopp_involutive x), <- H. ring.
Qed.

Lemma zero_small x : is_0 exactly q_tiny x = false -> x <> 0.
Proof. intros H ->. vm_compute in H. discriminate. Qed.

(** The measure of the code bounds the relaxed change. *)
Lemma near_step (P : params exactly) r v x N : tiny P = q_tiny -> 0 <= r -> change exactly P r v x <= N ->
  near N v (r * (x - v) + v).
Proof.
  intros T Hr H. unfold change, is_zero in H. rewrite T in H. cbn [abs exactly sub mul dvd ofZ M_Simul.min one] in H.
  unfold near. replace (r * (x - v) + v - v) with (- (r * (v - x))) by ring. rewrite q_abs_opp, q_abs_mul by exact Hr.
  fold (q_abs (v - x)) in H. destruct (is_0 exactly q_tiny v) eqn:Z0; cbn [negb] in H.
  - left. rewrite Qcmult_comm. exact H.
  - assert (Hv := zero_small v Z0). unfold M_Simul.min in H. cbn [lt exactly] in H.
    change (abs exactly ?z) with (q_abs z) in H.
    destruct (q_lt _ _); [left; now rewrite Qcmult_comm|]. right. rewrite q_0. split; [exact Hv|].
    unfold one in H. cbn [ofZ exactly] in H. rewrite q_1 in H. change (abs exactly ?z) with (q_abs z) in H.
    assert (E : q_abs (v - x) = q_abs (1 - x / v) * q_abs v).
    { assert (D : v - x = v * (1 - x / v)) by (field; exact Hv). rewrite D.
      destruct (q_abs_cases v) as [[J E]|[J E]].
      - rewrite q_abs_mul by exact J. rewrite E. ring.
      - rewrite E. replace (v * (1 - x / v)) with (- (- v * (1 - x / v))) by ring.
        rewrite q_abs_opp, q_abs_mul by (now apply opp_nonneg, Qclt_le_weak). ring. }
    rewrite E. replace (r * (q_abs (1 - x / v) * q_abs v)) with (q_abs (1 - x / v) * r * q_abs v) by ring.
    apply Qcmult_le_compat_r; [exact H|apply q_abs_pos].
Qed.
Lemma near_mono N M v w : N <= M -> near N v w -> near M v w.
Proof.
  intros H [K|[H0 K]]; [left|right; split; [exact H0|]]; eapply Qcle_trans; eauto.
  apply Qcmult_le_compat_r; [exact H|apply q_abs_pos].
Qed.

Section Pass.
Variable Q : eqns exactly.
Variable P : params exactly.
Variable R : Z -> Prop.
Variable endo : Z -> Z.
Variable t : Z.
Variable r : Qc.
Hypothesis Ht : tiny P = q_tiny.
Hypothesis Hr : 0 <= r.
Notation solve := (fun e s => calculate exactly Q P e t (endo e) s).
Notation rd := (readable exactly Q R endo t).
Notation agr := (agree exactly R).

Lemma pass_seq_at es : forall s v, ~ In v (map endo es) -> pass_seq exactly solve endo t r es s v t = s v t.
Proof.
  induction es as [|e es IH]; intros s v N; [reflexivity|]. cbn [pass_seq]. cbn [map] in N.
  rewrite IH by (intros H; apply N; now right). apply set_other. intros [H _]. apply N. now left.
Qed.

Lemma inter_1_near es : Forall rd es -> NoDup (map endo es) -> forall old s s' norm, agr s s' ->
  let i := interdep_1 exactly Q P endo t r es old s norm in
  i_ok i = true -> i_norm i < q_ofZ 10 ->
  norm <= i_norm i /\ forall e, In e es ->
    num exactly (s' (endo e) t) = true /\ near (i_norm i) (s' (endo e) t) (pass_seq exactly solve endo t r es s' (endo e) t).
Proof.
  induction 1 as [|e es (H1 & H2 & H3) F IH]; intros N old s s' norm G i Hok Hn; [cbn; split; [apply Qcle_refl|easy]|].
  inversion N as [|? ? N1 N2]; subst. unfold i in *. clear i. cbn [interdep_1] in Hok, Hn |- *. cbn [pass_seq].
  destruct (calculate_ext exactly Q P R e t (endo e) H1 H2 H3 s s' G) as [C1 C2].
  assert (C3 := calculate_only exactly Q P e t (endo e) s).
  rewrite <- (G (endo e) t H2). destruct (calculate exactly Q P e t (endo e) s) as [s1 x]. cbn [fst snd] in C1, C2, C3.
  rewrite <- C2. set (v := s (endo e) t) in *.
  destruct (negb (num exactly x)); [discriminate|].
  assert (AG : forall y, agr (set s1 (endo e) t y) (set s' (endo e) t y)).
  { intros y w p Hw. unfold set. destruct ((w =? endo e)%Z && (p =? t)%Z) eqn:B; [reflexivity|].
    destruct (C3 w p) as [[-> ->]|E]; [rewrite !Z.eqb_refl in B; discriminate|]. rewrite E. now apply G. }
  destruct (num exactly v) eqn:Hv; cbn [i_ok i_norm] in *.
  - set (y := add exactly (mul exactly r (sub exactly x v)) v) in *.
    set (norm' := if lt exactly norm (change exactly P r v x) then change exactly P r v x else norm) in *.
    destruct (IH N2 (tl old) _ _ norm' (AG y) Hok Hn) as [J1 J2]. cbv zeta in J1, J2.
    assert (K1 : norm <= norm' /\ change exactly P r v x <= norm').
    { unfold norm'. change (lt exactly) with q_lt. destruct (q_lt norm (change exactly P r v x)) eqn:B.
      - apply q_lt_iff in B. split; [now apply Qclt_le_weak|apply Qcle_refl].
      - apply q_lt_false in B. split; [apply Qcle_refl|exact B]. }
    destruct K1 as [K1 K2]. split; [eapply Qcle_trans; [exact K1|exact J1]|].
    intros f [<-|Hf].
    + split; [now rewrite <- (G (endo e) t H2)|].
      rewrite pass_seq_at by exact N1. rewrite set_same. rewrite <- (G (endo e) t H2). fold v.
      apply (near_step P); auto. eapply Qcle_trans; [exact K2|exact J1].
    + destruct (J2 f Hf) as [J3 J4].
      assert (D : endo f <> endo e) by (intros E; apply N1; rewrite <- E; now apply in_map).
      rewrite set_other in J3, J4 by tauto. now split.
  - exfalso. destruct (IH N2 (tl old) _ _ (ofZ exactly 10) (AG x) Hok Hn) as [J1 _].
    apply (Qclt_not_le _ _ Hn). exact J1.
Qed.

(** The second method. *)
Lemma solutions_stage es : Forall rd es -> forall old s s', agr s s' -> snd (stage_1 exactly Q P endo t es old s) = true ->
  snd (fst (stage_1 exactly Q P endo t es old s)) = solutions exactly solve es s'.
Proof.
  induction 1 as [|e es (H1 & H2 & H3) F IH]; intros old s s' G; [reflexivity|]. cbn [stage_1 solutions].
  destruct (calculate_ext exactly Q P R e t (endo e) H1 H2 H3 s s' G) as [C1 C2].
  destruct (calculate exactly Q P e t (endo e) s) as [s1 x], (calculate exactly Q P e t (endo e) s') as [s1' x'].
  cbn [fst snd] in C1, C2. subst x'. destruct (negb _); [discriminate|].
  assert (J := IH (tl old) s1 s1' C1). destruct (stage_1 exactly Q P endo t es (tl old) s1) as [[[? ?] ?] ?]. cbn [fst snd] in *.
  intros H. now rewrite J.
Qed.
Lemma stage_1_length es : forall old s, snd (stage_1 exactly Q P endo t es old s) = true ->
  length (snd (fst (stage_1 exactly Q P endo t es old s))) = length es.
Proof.
  induction es as [|e es IH]; intros old s; [reflexivity|]. cbn [stage_1].
  destruct (calculate exactly Q P e t (endo e) s) as [s1 x]. destruct (negb _); [discriminate|].
  assert (J := IH (tl old) s1). destruct (stage_1 exactly Q P endo t es (tl old) s1) as [[[? ?] ?] ?]. cbn [fst snd length] in *.
  intros H. now rewrite J.
Qed.
Lemma pass_all_at es : forall xs s v, ~ In v (map endo es) -> pass_all exactly endo t r es xs s v t = s v t.
Proof.
  induction es as [|e es IH]; intros [|x xs] s v N; try reflexivity. cbn [pass_all]. cbn [map] in N.
  rewrite IH by (intros H; apply N; now right). apply set_other. intros [H _]. apply N. now left.
Qed.
Lemma stage_2_near es : NoDup (map endo es) -> forall xs rest s s' norm, length xs = length es ->
  let n := snd (stage_2 exactly P endo t r es (map (fun e => s' (endo e) t) es ++ rest) xs s norm) in
  n < q_ofZ 10 ->
  norm <= n /\ forall e, In e es ->
    num exactly (s' (endo e) t) = true /\ near n (s' (endo e) t) (pass_all exactly endo t r es xs s' (endo e) t).
Proof.
  induction es as [|e es IH]; intros N [|x xs] rest s s' norm L n Hn; try discriminate; [cbn; split; [apply Qcle_refl|easy]|].
  inversion N as [|? ? N1 N2]; subst. unfold n in *. clear n. cbn [stage_2 map app pass_all] in *.
  set (v := s' (endo e) t) in *. injection L as L.
  assert (D : forall y f, In f es -> set s' (endo e) t y (endo f) t = s' (endo f) t).
  { intros y f Hf. apply set_other. intros [E _]. apply N1. rewrite <- E. now apply in_map. }
  assert (M : forall y, map (fun e => s' (endo e) t) es = map (fun f => set s' (endo e) t y (endo f) t) es).
  { intros y. apply map_ext_in. intros f Hf. now rewrite D. }
  destruct (num exactly v) eqn:Hv.
  - set (y := add exactly (mul exactly r x) (mul exactly (sub exactly (ofZ exactly 1) r) v)) in *.
    set (norm' := if lt exactly norm (change exactly P r v x) then change exactly P r v x else norm) in *.
    rewrite (M y) in Hn |- *. destruct (IH N2 xs rest (set s (endo e) t y) (set s' (endo e) t y) norm' L Hn) as [J1 J2].
    unfold y, one in *. set (k := snd _) in *.
    assert (K1 : norm <= norm' /\ change exactly P r v x <= norm').
    { unfold norm'. change (lt exactly) with q_lt. destruct (q_lt norm (change exactly P r v x)) eqn:B.
      - apply q_lt_iff in B. split; [now apply Qclt_le_weak|apply Qcle_refl].
      - apply q_lt_false in B. split; [apply Qcle_refl|exact B]. }
    destruct K1 as [K1 K2]. split; [eapply Qcle_trans; [exact K1|exact J1]|].
    intros f [<-|Hf].
    + split; [exact Hv|]. rewrite pass_all_at by exact N1. rewrite set_same. fold v.
      assert (NS := near_step P r v x k Ht Hr (Qcle_trans _ _ _ K2 J1)).
      cbn [add mul sub ofZ exactly]. rewrite q_1. replace (r * x + (1 - r) * v) with (r * (x - v) + v) by ring. exact NS.
    + destruct (J2 f Hf) as [J3 J4]. rewrite D in J3, J4 by exact Hf. now split.
  - exfalso. rewrite (M x) in Hn. destruct (IH N2 xs rest (set s (endo e) t x) (set s' (endo e) t x) (ofZ exactly 10) L Hn) as [J1 _].
    apply (Qclt_not_le _ _ Hn). exact J1.
Qed.
End Pass.

Lemma interdep_near (Q : eqns exactly) (P : params exactly) R endo t inter old s s' norm : tiny P = q_tiny ->
  Forall (readable exactly Q R endo t) inter -> NoDup (map endo inter) -> agree exactly R s s' ->
  let i := interdep exactly Q P endo inter t old s norm in
  i_ok i = true -> i_norm i <= eps P -> eps P < q_ofZ 10 ->
  forall e, In e inter ->
    num exactly (s' (endo e) t) = true /\ near (eps P) (s' (endo e) t) (one_more Q P endo t inter s' (endo e) t).
Proof.
  intros T F N G i Hok Hn He e Hin. assert (Hn' : i_norm i < q_ofZ 10) by (eapply Qcle_lt_trans; eauto).
  unfold one_more. unfold i in *. clear i. unfold interdep in *.
  assert (B : le exactly (zer exactly) (relax P) = negb (q_lt (relax P) (q_ofZ 0))).
  { destruct (q_lt (relax P) (q_ofZ 0)) eqn:Z0.
    - apply not_true_iff_false. rewrite q_le_iff. intros K. apply q_lt_iff in Z0. unfold zer in K. cbn in K.
      now apply (Qclt_not_le _ _ Z0).
    - apply q_le_iff. now apply q_lt_false in Z0. }
  rewrite B in *. change (abs exactly (relax P)) with (q_abs (relax P)) in *.
  assert (Hr := q_abs_pos (relax P)). destruct (q_lt (relax P) (q_ofZ 0)); cbn [negb] in *.
  - unfold interdep_2 in *. change (abs exactly (relax P)) with (q_abs (relax P)) in *.
    assert (X := stage_1_xk exactly Q P endo t inter N old s).
    assert (L := stage_1_length Q P endo t inter old s).
    assert (S := solutions_stage Q P R endo t inter F old s s' G).
    destruct (stage_1 exactly Q P endo t inter old s) as [[[s2 xks] xs] ok]. cbn [fst snd] in *.
    destruct ok; [|discriminate]. destruct (X eq_refl) as (rest & E). clear X. specialize (L eq_refl). specialize (S eq_refl).
    assert (E' : xks = map (fun e => s' (endo e) t) inter ++ rest).
    { rewrite E. f_equal. apply map_ext_in. intros f Hf. rewrite Forall_forall in F. apply G. apply (F f Hf). }
    subst xks xs.
    assert (J := stage_2_near P endo t (q_abs (relax P)) T Hr inter N _ rest s2 s' (zer exactly) L).
    cbv zeta in J. rewrite E' in *. destruct (stage_2 _ _ _ _ _ _ _ _ _ _) as [s3 n]. cbn [snd i_norm] in *.
    destruct (J Hn') as [_ J2]. destruct (J2 e Hin) as [J3 J4]. split; [exact J3|]. eapply near_mono; eauto.
  - destruct (inter_1_near Q P R endo t (q_abs (relax P)) T Hr inter F N old s s' (zer exactly) G Hok Hn') as [_ J].
    destruct (J e Hin) as [J3 J4]. split; [exact J3|]. eapply near_mono; eauto.
Qed.
