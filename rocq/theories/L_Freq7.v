(** The change of periodicity: what is not changed, for all methods and samples. *)
From Coq Require Import ZArith Ascii String List Bool Lia.
From Verif Require Import M_Base M_Time M_Names M_Lex M_Compile M_Bytes M_Exec M_Kdb M_Vars M_Freq S_Time S_Vars S_Freq
  L_Time L_Names L_Kdb L_Vars L_Vars2 L_Vars5 L_Freq L_Freq2 L_Freq3 L_Freq4 L_Freq5 L_Freq6.
Import ListNotations.
Open Scope Z_scope.
Local Arguments Z.add : simpl never.
Local Arguments Z.sub : simpl never.
Local Arguments Z.mul : simpl never.

Section L.
Context (A : arith).
Notation F := (F A). Notation na := (na A). Notation num := (num A).
Ltac ok H := match type of H with
  | rbind ?r _ = Ok _ => let x := fresh "x" in let E := fresh "E" in destruct r as [x| |] eqn:E; cbn [rbind] in H; try discriminate
  end.

(** * Lengths *)
Lemma put_len v i x v' : put_at A v i x = Ok v' -> length v' = length v.
Proof.
  unfold put_at. destruct (write A v i x) eqn:E; [|discriminate]. intros H. injection H as <-. apply write_read in E. tauto.
Qed.
Lemma skip_len n : forall f t sh to r, skip_loop A n f t sh to = Ok r -> length (fst r) = length to.
Proof.
  induction n as [|n IH]; intros f t sh to r H; cbn [skip_loop] in H; [injection H as <-; reflexivity|].
  destruct (_ && _) in H; [|eapply IH; eauto]. ok H. apply put_len in E. rewrite <- E. eapply IH; eauto.
Qed.
Lemma htol_loop_len n : forall m sh nb from f t to r, htol_loop A n m sh nb from f t to = Ok r -> length (fst r) = length to.
Proof.
  induction n as [|n IH]; intros m sh nb from f t to r H; cbn [htol_loop] in H; destruct (f + sh <=? nb) in H;
    try discriminate; try (injection H as <-; reflexivity).
  ok H. ok H. ok H. apply put_len in E1. rewrite <- E1. eapply IH; eauto.
Qed.
Lemma fill_len n : forall t to to', fill A n t to = Ok to' -> length to' = length to.
Proof.
  induction n as [|n IH]; intros t to to' H; cbn [fill] in H; [injection H as <-; reflexivity|].
  ok H. apply put_len in E. rewrite <- E. eapply IH; eauto.
Qed.
Lemma htol_len m skip sh nb tnb from to : htol_vector A m skip sh nb tnb from = Ok to -> Z.of_nat (length to) = tnb.
Proof.
  unfold htol_vector. destruct (Z.ltb_spec tnb 0); [discriminate|]. intros H0. ok H0. ok H0.
  apply skip_len in E. apply htol_loop_len in E0. apply fill_len in H0. rewrite H0, E0, E, repeat_length. lia.
Qed.
Lemma write_block_len n : forall j t val to to', write_block A n j t val to = Ok to' -> length to' = length to.
Proof.
  induction n as [|n IH]; intros j t val to to' H; cbn [write_block] in H; [injection H as <-; reflexivity|].
  ok H. ok H. apply put_len in E0. rewrite <- E0. eapply IH; eauto.
Qed.
Lemma write_blocks_len n : forall f t sh val to to', write_blocks A n f t sh val to = Ok to' -> length to' = length to.
Proof.
  induction n as [|n IH]; intros f t sh val to to' H; cbn [write_blocks] in H; [injection H as <-; reflexivity|].
  ok H. apply write_block_len in E. rewrite <- E. eapply IH; eauto.
Qed.
Lemma lin_len n : forall ty from nb sh beg to to', lin_runs A n ty from nb sh beg to = Ok to' -> length to' = length to.
Proof.
  induction n as [|n IH]; intros ty from nb sh beg to to' H; [discriminate|]. rewrite lin_step in H.
  ok H. destruct (nb <=? x) in H; [injection H as <-; reflexivity|]. ok H. ok H.
  assert (L : length x1 = length to) by (destruct (x <? x0 - 1) in E1; [eapply write_blocks_len; eauto|injection E1 as <-; reflexivity]).
  rewrite <- L. eapply IH; eauto.
Qed.
Lemma step_len n : forall ty from nb sh beg to to', step_runs A n ty from nb sh beg to = Ok to' -> length to' = length to.
Proof.
  induction n as [|n IH]; intros ty from nb sh beg to to' H; [discriminate|]. cbn [step_runs] in H.
  ok H. destruct (nb <=? x) in H; [injection H as <-; reflexivity|]. ok H. ok H.
  assert (L : length x1 = length to) by (destruct (x <? x0) in E1; [eapply write_blocks_len; eauto|injection E1 as <-; reflexivity]).
  rewrite <- L. eapply IH; eauto.
Qed.
Lemma flow_block_len n : forall j t val sum to r, flow_block A n j t val sum to = Ok r -> length (fst r) = length to.
Proof.
  induction n as [|n IH]; intros j t val sum to r H; cbn [flow_block] in H; [injection H as <-; reflexivity|].
  ok H. ok H. apply put_len in E0. rewrite <- E0. eapply IH; eauto.
Qed.
Lemma add_block_len n : forall t d to to', add_block A n t d to = Ok to' -> length to' = length to.
Proof.
  induction n as [|n IH]; intros t d to to' H; cbn [add_block] in H; [injection H as <-; reflexivity|].
  ok H. ok H. apply put_len in E0. rewrite <- E0. eapply IH; eauto.
Qed.
Lemma flow_blocks_len n : forall from y2 f t sh to to', flow_blocks A n from y2 f t sh to = Ok to' -> length to' = length to.
Proof.
  induction n as [|n IH]; intros from y2 f t sh to to' H; cbn [flow_blocks] in H; [injection H as <-; reflexivity|].
  ok H. destruct x as [to1 sum]. apply flow_block_len in E. cbn [fst] in E. ok H.
  assert (L : length x = length to1).
  { destruct (num sum); [|injection E0 as <-; reflexivity]. ok E0. eapply add_block_len; eauto. }
  rewrite <- E, <- L. eapply IH; eauto.
Qed.
Lemma cs_len n : forall ty from y2 nb sh beg to to', cs_runs A n ty from y2 nb sh beg to = Ok to' -> length to' = length to.
Proof.
  induction n as [|n IH]; intros ty from y2 nb sh beg to to' H; [discriminate|]. cbn [cs_runs] in H.
  ok H. destruct (nb <=? x) in H; [injection H as <-; reflexivity|]. destruct ty.
  - ok H. destruct x0 as [dim z]. ok H. apply write_blocks_len in E1. rewrite <- E1. eapply IH; eauto.
  - ok H. ok H. destruct x1 as [dim z]. ok H. apply flow_blocks_len in E2. rewrite <- E2. eapply IH; eauto.
Qed.
Lemma ltoh_len m ty sh nb tnb from to : ltoh_vector A m ty sh nb tnb from = Ok to -> Z.of_nat (length to) = tnb.
Proof.
  unfold ltoh_vector. destruct (Z.ltb_spec tnb 0); [discriminate|]. intros H0.
  assert (L : length to = length (repeat na (Z.to_nat tnb))) by (destruct m; [eapply lin_len|eapply cs_len|eapply step_len]; eauto).
  rewrite L, repeat_length. lia.
Qed.
Lemma map_vars_in g l : forall l', map_vars A g l = Ok l' -> forall n v', In (n, v') l' -> exists v, g v = Ok v'.
Proof.
  induction l as [|[n v] l IH]; intros l' H k w Hin; unfold map_vars in *; cbn [mapM fst snd] in H.
  - injection H as <-. destruct Hin.
  - ok H. ok H. injection H as <-. ok E. injection E as <-. destruct Hin as [X|X]; [injection X as <- <-; eauto|eapply IH; eauto].
Qed.

(** * Samples *)
Lemma shift_from y c nb k p1 : sub_periods c nb -> 0 <= k -> shift (mkP y 1 c) k = Ok p1 -> valid_period p1 /\ per p1 = c /\ y <= year p1.
Proof.
  intros Hs Hk E. pose proof (sub_pos _ _ Hs).
  destruct (shift_spec (mkP y 1 c) k nb Hs ltac:(cbn; lia)) as (p & Ep & Pp & Bp & Op). rewrite E in Ep. injection Ep as <-.
  cbn [per] in Pp. split; [exists nb; rewrite Pp; auto|]. split; auto. apply (year_ord nb y p1 Bp). rewrite Op. unfold ord. cbn [year M_Time.step]. lia.
Qed.
Lemma made p1 p2 nb t : sub_periods (per p1) nb -> valid_period p1 -> valid_period p2 -> per p2 = per p1 ->
  nb * (year p2 - year p1 + 1) <= 32767 -> make_sample p1 p2 = Ok t -> sample_ok t /\ s_start t = p1 /\ s_end t = p2.
Proof.
  intros Hs V1 V2 P B E. rewrite (make_sample_spec p1 p2 nb Hs V1 V2 P) in E. pose proof (sub_pos _ _ Hs).
  pose proof (valid_inv _ _ V1 Hs). pose proof (valid_inv p2 nb V2 ltac:(rewrite P; auto)).
  destruct (Z.ltb_spec (ord nb p2 - ord nb p1) 0); [discriminate|].
  assert (Sz : ord nb p2 - ord nb p1 + 1 <= 32767) by (unfold ord in *; nia).
  rewrite to_short_id in E by lia. injection E as <-. cbn [s_start s_end]. split; auto.
  exists (Z.to_nat (ord nb p2 - ord nb p1)). cbn [s_start s_end s_nb]. repeat split; auto; try lia. apply (ord_steps _ _ _ nb); auto. lia.
Qed.
Lemma htol_regular meth (from : vdb A) ws to wn : regular A from -> sub_periods (per (s_start ws)) wn -> htol A meth from ws = Ok to ->
  regular A to /\ forall q, in_sample A to q -> year (s_start (v_smp from)) <= year q <= year (s_end (v_smp from)).
Proof.
  intros R Hw E. pose proof R as (Ok_ & ND & Len). unfold htol in E. ok E. destruct x as [[[t skip] sh]|]; [|discriminate].
  pose proof Ok_ as (kk & _ & (fn & Hf & Bf) & _). destruct (ok_ord (v_smp from) _ Ok_ Hf) as (Vs & Ve & Pe & B & O).
  pose proof (valid_inv _ _ Ve ltac:(rewrite Pe; exact Hf)) as Be.
  assert (Os : ord fn (s_start (v_smp from)) = fn * year (s_start (v_smp from)) + M_Time.step (s_start (v_smp from))) by reflexivity.
  assert (Oe : ord fn (s_end (v_smp from)) = fn * year (s_end (v_smp from)) + M_Time.step (s_end (v_smp from))) by reflexivity.
  assert (T : sample_ok t /\ year (s_start (v_smp from)) <= year (s_start t) /\ year (s_end t) = year (s_end (v_smp from)) /\ per (s_start t) = per (s_start ws)).
  { unfold htol_smpl in E0. rewrite (sub_nb _ _ Hf), (sub_nb _ _ Hw) in E0. cbn [rbind] in E0. pose proof (sub_pos _ _ Hw).
    destruct (_ || _) in E0; [discriminate|]. destruct (Z.leb_spec fn wn); [discriminate|].
    set (y1 := year (s_start (v_smp from))) in *. set (y2 := year (s_end (v_smp from))) in *.
    assert (Sz : wn * (y2 - y1 + 1) <= 32767).
    { assert (fn * (y2 - y1 - 1) + 2 <= 32767) by nia. destruct (sub_cases _ _ Hw) as [->|[->|[->|[->|[->| ->]]]]], (sub_cases _ _ Hf) as [->|[->|[->|[->|[->| ->]]]]]; lia. }
    assert (Qn : 0 <= Z.quot (M_Time.step (s_start (v_smp from)) - 1) (Z.quot fn wn)).
    { apply Z.quot_pos; [lia|]. apply Z.quot_str_pos. lia. }
    ok E0. rename x into p1. destruct (shift_from _ _ wn _ _ Hw Qn E1) as (V1 & P1 & Y1). fold y1 in Y1.
    assert (V2 : valid_period (mkP y2 wn (per (s_start ws)))) by (exists wn; cbn; split; auto; lia).
    set (sk := (year p1 - y1) * fn + _ - _) in E0. destruct (sk <? 0) in E0; cbn iota beta in E0.
    - set (p1' := mkP (year p1 + 1) (M_Time.step p1) (per p1)) in *.
      assert (V1' : valid_period p1') by (destruct V1 as (z & Z1 & Z2); exists z; auto).
      destruct (make_sample p1' _) as [t'| |] eqn:Em; try discriminate. injection E0 as -> _ _.
      destruct (made p1' _ wn t ltac:(unfold p1'; cbn [per]; rewrite P1; auto) V1' V2 ltac:(unfold p1'; cbn [per]; auto) ltac:(unfold p1'; cbn [year]; nia) Em) as (T1 & -> & ->).
      split; auto. unfold p1'. cbn [year per]. repeat split; auto; lia.
    - destruct (make_sample p1 _) as [t'| |] eqn:Em; try discriminate. injection E0 as -> _ _.
      destruct (made _ _ wn t ltac:(rewrite P1; auto) V1 V2 ltac:(cbn [per]; auto) ltac:(cbn [year]; nia) Em) as (T1 & -> & ->).
      split; auto. }
  destruct T as (Okt & Y1 & Y2 & Pt). ok E. injection E as <-. pose proof (map_vars_keys A _ _ _ E1) as K. split.
  - split; [exact Okt|]. split; cbn [v_vars v_smp]; [rewrite K; exact ND|]. intros n v' Hin.
    destruct (map_vars_in _ _ _ E1 n v' Hin) as (v & Hv). now apply htol_len in Hv.
  - intros q I. unfold in_sample in I. cbn [v_smp] in I. assert (Ht : sub_periods (per (s_start t)) wn) by (rewrite Pt; auto).
    apply (between_ord _ wn _ Okt Ht) in I. destruct I as (Vq & Eq & Bq). destruct (ok_ord t _ Okt Ht) as (Vt1 & Vt2 & Ptt & _).
    pose proof (valid_inv q wn Vq ltac:(rewrite Eq; auto)) as Bsq. pose proof (valid_inv _ _ Vt1 Ht). pose proof (valid_inv (s_end t) wn Vt2 ltac:(rewrite Ptt; auto)).
    assert (year (s_start t) <= year q) by (apply (year_ord wn _ q Bsq); unfold ord in *; lia).
    assert (year q <= year (s_end t)) by (apply (year_ord wn _ q Bsq); unfold ord in *; lia). lia.
Qed.
Lemma ltoh_regular meth ty (from : vdb A) ws to wn : regular A from -> sub_periods (per (s_start ws)) wn -> fits (per (s_start ws)) (v_smp from) ->
  ltoh A meth ty from ws = Ok to ->
  regular A to /\ forall q, in_sample A to q -> year (s_start (v_smp from)) <= year q <= year (s_end (v_smp from)).
Proof.
  intros R Hw Fi E. pose proof R as (Ok_ & ND & Len). unfold ltoh in E. ok E. destruct x as [[t sh]|]; [|discriminate].
  pose proof Ok_ as (kk & _ & (fn & Hf & Bf) & _). destruct (ok_ord (v_smp from) _ Ok_ Hf) as (Vs & Ve & Pe & B & O).
  specialize (Fi _ Hw).
  assert (T : sample_ok t /\ year (s_start (v_smp from)) <= year (s_start t) /\ year (s_end t) = year (s_end (v_smp from)) /\ per (s_start t) = per (s_start ws)).
  { unfold ltoh_smpl in E0. rewrite (sub_nb _ _ Hf), (sub_nb _ _ Hw) in E0. cbn [rbind] in E0. pose proof (sub_pos _ _ Hw). pose proof (sub_pos _ _ Hf).
    destruct (_ <=? 0) in E0; [discriminate|]. destruct (Z.leb_spec wn fn); [discriminate|].
    set (y1 := year (s_start (v_smp from))) in *. set (y2 := year (s_end (v_smp from))) in *.
    assert (Qn : 0 <= Z.quot (M_Time.step (s_start (v_smp from)) - 1) (Z.quot wn fn)).
    { apply Z.quot_pos; [lia|]. apply Z.quot_str_pos. lia. }
    ok E0. rename x into p1. destruct (shift_from _ _ wn _ _ Hw Qn E1) as (V1 & P1 & Y1). fold y1 in Y1.
    assert (V2 : valid_period (mkP y2 wn (per (s_start ws)))) by (exists wn; cbn; split; auto; lia).
    destruct (make_sample p1 _) as [t'| |] eqn:Em; try discriminate. injection E0 as -> _.
    destruct (made _ _ wn t ltac:(rewrite P1; auto) V1 V2 ltac:(cbn [per]; auto) ltac:(cbn [year]; nia) Em) as (T1 & -> & ->). split; auto. }
  destruct T as (Okt & Y1 & Y2 & Pt). ok E. injection E as <-. pose proof (map_vars_keys A _ _ _ E1) as K. split.
  - split; [exact Okt|]. split; cbn [v_vars v_smp]; [rewrite K; exact ND|]. intros n v' Hin.
    destruct (map_vars_in _ _ _ E1 n v' Hin) as (v & Hv). now apply ltoh_len in Hv.
  - intros q I. unfold in_sample in I. cbn [v_smp] in I. assert (Ht : sub_periods (per (s_start t)) wn) by (rewrite Pt; auto).
    apply (between_ord _ wn _ Okt Ht) in I. destruct I as (Vq & Eq & Bq). destruct (ok_ord t _ Okt Ht) as (Vt1 & Vt2 & Ptt & _).
    pose proof (valid_inv q wn Vq ltac:(rewrite Eq; auto)) as Bsq. pose proof (valid_inv _ _ Vt1 Ht). pose proof (valid_inv (s_end t) wn Vt2 ltac:(rewrite Ptt; auto)).
    assert (year (s_start t) <= year q) by (apply (year_ord wn _ q Bsq); unfold ord in *; lia).
    assert (year q <= year (s_end t)) by (apply (year_ord wn _ q Bsq); unfold ord in *; lia). lia.
Qed.

(** * The merge *)
Lemma common_cases (ws to : vdb A) : regular A ws -> regular A to ->
  (exists q, in_sample A ws q /\ in_sample A to q) \/ (forall q, valid_period q -> ~ (in_sample A ws q /\ in_sample A to q)).
Proof.
  intros (Ow & _) (Ot & _). pose proof Ow as (kw & _ & (nb & Hs & Bs) & _). destruct (Ascii.eqb_spec (per (s_start (v_smp to))) (per (s_start (v_smp ws)))) as [Pe|Pe].
  - assert (Ht : sub_periods (per (s_start (v_smp to))) nb) by (rewrite Pe; auto).
    destruct (ok_ord _ nb Ow Hs) as (V1 & _ & P1 & B1 & O1), (ok_ord _ nb Ot Ht) as (V2 & _ & P2 & B2 & O2).
    set (a := ord nb (s_start (v_smp ws))) in *. set (b := ord nb (s_start (v_smp to))) in *.
    set (a' := ord nb (s_end (v_smp ws))) in *. set (b' := ord nb (s_end (v_smp to))) in *.
    destruct (Z.leb_spec (Z.max a b) (Z.min a' b')).
    + left. destruct (Z.le_ge_cases a b).
      * exists (s_start (v_smp to)). split; apply (between_ord _ nb); auto; repeat split; auto; fold a b a' b'; lia.
      * exists (s_start (v_smp ws)). split; apply (between_ord _ nb); auto; repeat split; auto; fold a b a' b'; lia.
    + right. intros q Vq [I1 I2]. apply (between_ord _ nb _ Ow Hs) in I1. apply (between_ord _ nb _ Ot Ht) in I2.
      destruct I1 as (_ & _ & I1), I2 as (_ & _ & I2). fold a b a' b' in I1, I2. lia.
  - right. intros q Vq [I1 I2]. destruct (in_sample_pos A _ _ Ow I1) as [i X]. destruct (in_sample_pos A _ _ Ot I2) as [j Y].
    apply position_per in X, Y. congruence.
Qed.
Lemma command_frame conv asked (from ws ws' : vdb A) : regular A ws ->
  (forall to, conv from (v_smp ws) = Ok to -> regular A to /\
     forall q, in_sample A to q -> year (s_start (v_smp from)) <= year q <= year (s_end (v_smp from))) ->
  command A conv asked (Some from) (Some ws) = Ok ws' ->
  forall n q, valid_period q -> year q < year (s_start (v_smp from)) \/ year (s_end (v_smp from)) < year q -> has A ws n -> value A ws' n q = value A ws n q.
Proof.
  intros Rw K E n q Vq Y Hn. destruct (conv from (v_smp ws)) as [to| |] eqn:Ec.
  - destruct (K to eq_refl) as [Rt Yt]. assert (Na : asked <> []) by (intros ->; discriminate E).
    destruct (common_cases ws to Rw Rt) as [(q0 & I1 & I2)|D].
    + destruct (command_ok A conv asked from ws to q0 Na Ec Rw Rt I1 I2) as (w & Em & _ & _ & _ & _ & _ & H & _).
      rewrite E in Em. injection Em as <-. apply H; auto. intros X. apply Yt in X. lia.
    + rewrite (command_disjoint A conv asked from ws to Na Ec Rw Rt D) in E. discriminate.
  - unfold command in E. destruct asked; try discriminate. rewrite Ec in E. discriminate.
  - unfold command in E. destruct asked; try discriminate. rewrite Ec in E. discriminate.
Qed.
End L.
