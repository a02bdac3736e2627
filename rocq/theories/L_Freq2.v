(** Lemmas on the samples of the change of periodicity: high to low. *)
From Coq Require Import ZArith Ascii String List Bool Lia.
From Verif Require Import M_Base M_Time M_Names M_Lex M_Compile M_Bytes M_Exec M_Kdb M_Vars M_Freq S_Time S_Freq
  L_Time L_Kdb L_Vars L_Vars5 L_Freq.
Import ListNotations.
Open Scope Z_scope.
Local Arguments Z.add : simpl never.
Local Arguments Z.sub : simpl never.
Local Arguments Z.mul : simpl never.
Notation stp := M_Time.step.

Lemma sub_cases c nb : sub_periods c nb -> nb = 1 \/ nb = 2 \/ nb = 4 \/ nb = 12 \/ nb = 52 \/ nb = 365.
Proof. intros H; destruct H; auto 7. Qed.
Lemma ok_ord s nb : sample_ok s -> sub_periods (per (s_start s)) nb ->
  valid_period (s_start s) /\ valid_period (s_end s) /\ per (s_end s) = per (s_start s) /\
  0 < s_nb s <= 32767 /\ ord nb (s_end s) = ord nb (s_start s) + s_nb s - 1.
Proof.
  intros (n & Hn & V1 & V2 & St & E) Hs. destruct (steps_ord _ _ _ St V1 nb Hs) as (P & _ & O).
  repeat split; auto; lia.
Qed.
Lemma position_ord s nb q : sub_periods (per (s_start s)) nb -> per q = per (s_start s) ->
  forall i, M_Time.position s q = Ok i <-> i = ord nb q - ord nb (s_start s) /\ 0 <= i < s_nb s.
Proof.
  intros Hs E i. unfold M_Time.position. rewrite (difference_spec q (s_start s) nb) by (congruence || (rewrite E; auto)).
  cbn [rbind]. destruct (Z.ltb_spec (ord nb q - ord nb (s_start s)) 0), (Z.leb_spec (s_nb s) (ord nb q - ord nb (s_start s)));
    cbn [orb]; (split; [intros X|intros [-> X]]); try discriminate; try lia; [injection X as <-; lia | reflexivity].
Qed.
Lemma position_per s q i : M_Time.position s q = Ok i -> per q = per (s_start s).
Proof.
  unfold M_Time.position, difference. destruct (Ascii.eqb_spec (per q) (per (s_start s))); auto. discriminate.
Qed.
Lemma between_ord s nb q : sample_ok s -> sub_periods (per (s_start s)) nb ->
  (between (s_start s) (s_end s) q <-> valid_period q /\ per q = per (s_start s) /\ ord nb (s_start s) <= ord nb q <= ord nb (s_end s)).
Proof.
  intros H Hs. destruct (ok_ord s nb H Hs) as (V1 & V2 & P & B & O). split.
  - intros (i & j & S1 & S2). destruct (steps_ord _ _ _ S1 V1 nb Hs) as (Pq & Vq & Oq).
    destruct (steps_ord _ _ _ S2 Vq nb ltac:(rewrite Pq; auto)) as (_ & _ & O2). repeat split; auto; lia.
  - intros (Vq & Pq & B'). exists (Z.to_nat (ord nb q - ord nb (s_start s))), (Z.to_nat (ord nb (s_end s) - ord nb q)). split.
    + apply (ord_steps _ _ _ nb); auto. lia.
    + apply (ord_steps _ _ _ nb); auto; try congruence. lia.
Qed.

(** The parts of a period. *)
Lemma part_ord m p q k wn : sub_periods (per p) wn -> part m p q k -> 0 < m ->
  sub_periods (per q) (m * wn) /\ 1 <= k <= m /\ ord (m * wn) q = m * (ord wn p - 1) + k.
Proof.
  intros Hp (np & H1 & H2 & Y & K & St) Hm. pose proof (sub_det _ _ _ Hp H1). subst np. repeat split; auto; try lia.
  unfold ord. rewrite Y, St. ring.
Qed.
Lemma part_exists m p k wn c : sub_periods (per p) wn -> valid_period p -> sub_periods c (m * wn) -> 0 < m -> 1 <= k <= m ->
  exists q, part m p q k /\ valid_period q /\ per q = c /\ ord (m * wn) q = m * (ord wn p - 1) + k.
Proof.
  intros Hp V Hc Hm K. pose proof (valid_inv _ _ V Hp) as B. exists (mkP (year p) ((stp p - 1) * m + k) c).
  split; [|split; [|split]].
  - exists wn. cbn. repeat split; auto; lia.
  - exists (m * wn). cbn. split; auto. nia.
  - reflexivity.
  - unfold ord. cbn. ring.
Qed.
Lemma part_valid m p q k : valid_period p -> part m p q k -> valid_period q.
Proof.
  intros V (np & H1 & H2 & Y & K & St). exists (m * np). split; auto. pose proof (valid_inv _ _ V H1). rewrite St. nia.
Qed.

(** The target sample. *)
Definition last_of (c : ascii) (wn : Z) (s : sample) : period := mkP (year (s_end s)) wn c.
Lemma htol_smpl_ok fs ws m wn : sample_ok fs -> sub_periods (per (s_start ws)) wn -> sub_periods (per (s_start fs)) (m * wn) ->
  1 < m -> (wn = 1 \/ begins m fs) ->
  exists p1 skip, 0 <= skip < m /\ valid_period p1 /\ per p1 = per (s_start ws) /\
    m * (ord wn p1 - 1) + 1 = ord (m * wn) (s_start fs) + skip /\
    htol_smpl fs ws = match make_sample p1 (last_of (per (s_start ws)) wn fs) with Ok t => Ok (Some (t, skip, m)) | _ => Ok None end.
Proof.
  intros H Hw Hf Hm D. destruct (ok_ord fs _ H Hf) as (V1 & V2 & P & B & O).
  pose proof (valid_inv _ _ V1 Hf) as Bs. pose proof (sub_pos _ _ Hw) as Pw.
  unfold htol_smpl. rewrite (sub_nb _ _ Hw), (sub_nb _ _ Hf). cbn [rbind].
  destruct (Z.leb_spec wn 0); [lia|]. cbn [orb].
  destruct (Z.eqb_spec wn 12) as [->|_].
  { exfalso. apply sub_cases in Hf. lia. }
  destruct (Z.leb_spec (m * wn) wn); [nia|].
  assert (Eq : Z.quot (m * wn) wn = m) by (apply Z.quot_mul; lia). rewrite Eq.
  set (s := stp (s_start fs)) in *. set (y := year (s_start fs)).
  assert (Q : Z.quot (s - 1) m = (s - 1) / m) by (apply Z.quot_div_nonneg; lia). rewrite Q.
  pose proof (Z.div_mod (s - 1) m ltac:(lia)) as DM. pose proof (Z.mod_pos_bound (s - 1) m ltac:(lia)) as MB.
  assert (Q0 : 0 <= (s - 1) / m < wn) by (split; [apply Z.div_pos; lia | apply Z.div_lt_upper_bound; lia]).
  set (q0 := (s - 1) / m) in *.
  assert (Sh : shift (mkP y 1 (per (s_start ws))) q0 = Ok (mkP y (1 + q0) (per (s_start ws)))).
  { unfold shift. cbn [per]. rewrite (sub_nb _ _ Hw). cbn [rbind M_Time.step year]. destruct (Z.leb_spec 0 q0); [|lia].
    replace (1 + q0 - 1) with q0 by lia. rewrite Z.quot_small, Z.rem_small by lia. do 2 f_equal. lia. }
  rewrite Sh. cbn [rbind year M_Time.step per].
  replace ((y - y) * (m * wn) + (1 + q0 - 1) * m - (s - 1)) with (- ((s - 1) mod m)) by lia.
  destruct (Z.ltb_spec (- ((s - 1) mod m)) 0) as [N|N].
  - assert (wn = 1) as E1.
    { destruct D as [D|(p & Vp & np & K1 & K2 & Y & K & St)]; auto. exfalso. fold s in St.
      replace (s - 1) with ((stp p - 1) * m) in N by lia. rewrite Z.mod_mul in N by lia. lia. }
    exists (mkP (y + 1) (1 + q0) (per (s_start ws))), (- ((s - 1) mod m) + m). cbn [per].
    split; [lia|]. split. { exists wn. cbn. split; auto. lia. }
    split; auto. split; [|reflexivity]. assert (q0 = 0) by lia. unfold ord. cbn [year M_Time.step]. fold s. fold y.
    rewrite E1. lia.
  - exists (mkP y (1 + q0) (per (s_start ws))), (- ((s - 1) mod m)). cbn [per].
    split; [lia|]. split. { exists wn. cbn. split; auto. lia. }
    split; auto. split; [|reflexivity]. unfold ord. cbn [year M_Time.step]. fold s. fold y. lia.
Qed.

Section L.
Context (A : arith).
Notation F := (F A). Notation na := (na A). Notation num := (num A).

Lemma map_vars_ok (g : list F -> res (list F)) l : (forall n v, In (n, v) l -> exists v', g v = Ok v') ->
  exists l', map_vars A g l = Ok l' /\ keys l' = keys l /\
    (forall n v, find n l = Some v -> exists v', find n l' = Some v' /\ g v = Ok v') /\
    (forall n v', In (n, v') l' -> exists v, In (n, v) l /\ g v = Ok v').
Proof.
  induction l as [|[n v] l IH]; intros H.
  - exists []. cbn. repeat split; auto; [discriminate|contradiction].
  - destruct (H n v (or_introl eq_refl)) as [v' Hv].
    destruct IH as (l' & E & K & Fi & B); [intros; eapply H; right; eauto|].
    exists ((n, v') :: l'). unfold map_vars in *. cbn [mapM fst snd]. rewrite Hv. cbn [rbind]. rewrite E. cbn [rbind].
    split; auto. split; [unfold keys in *; cbn; congruence|]. split.
    + intros k w. cbn [find]. destruct (str_eqb k n); [|apply Fi]. intros X. inversion X; subst. eauto.
    + intros k w [X|X]; [inversion X; subst; exists v; split; [left|]; auto|]. destruct (B k w X) as (u & U & G). exists u. split; [right|]; auto.
Qed.
Lemma find_some_in n (l : smap (list F)) : In n (keys l) -> exists v, find n l = Some v.
Proof. intros H. destruct (find n l) eqn:E; eauto. apply find_None in E. contradiction. Qed.

Section Htol.
Context (meth : htol_method) (from : vdb A) (ws : sample) (m wn : Z).
Hypothesis R : regular A from.
Hypothesis Hw : sub_periods (per (s_start ws)) wn.
Hypothesis Hf : sub_periods (per (s_start (v_smp from))) (m * wn).
Hypothesis Hm : 1 < m.
Hypothesis D : wn = 1 \/ begins m (v_smp from).
Notation fs := (v_smp from).
Notation fn := (m * wn).

(** The conversion in terms of positions. *)
Lemma htol_core : exists p1 skip, let p2 := last_of (per (s_start ws)) wn fs in
  0 <= skip < m /\ valid_period p1 /\ per p1 = per (s_start ws) /\
  m * (ord wn p1 - 1) + 1 = ord fn (s_start fs) + skip /\
  (ord wn p2 < ord wn p1 -> htol A meth from ws = UB) /\
  (ord wn p1 <= ord wn p2 -> exists l,
     let t := mkS p1 p2 (ord wn p2 - ord wn p1 + 1) in
     htol A meth from ws = Ok (mkVdb t l) /\ s_nb t < 32767 /\
     keys l = keys (v_vars from) /\
     (forall n v, In (n, v) l -> Z.of_nat (length v) = s_nb t) /\
     forall n v, find n (v_vars from) = Some v -> exists v', find n l = Some v' /\
       forall u, 0 <= u < s_nb t -> read A v' u =
         Some (if u <? groups_from (s_nb fs) m skip then aggregated A meth (slice A (skip + u * m) m v) else na)).
Proof.
  destruct R as (Ok_ & ND & Len). destruct (htol_smpl_ok fs ws m wn Ok_ Hw Hf Hm D) as (p1 & skip & Bs & V1 & P1 & O1 & E).
  exists p1, skip. intros p2. split; auto. split; auto. split; auto. split; auto.
  pose proof (sub_pos _ _ Hw) as Pw.
  assert (V2 : valid_period p2) by (exists wn; cbn; split; auto; lia).
  assert (Hs1 : sub_periods (per p1) wn) by (rewrite P1; auto).
  assert (P2 : per p2 = per p1) by (cbn; auto).
  fold p2 in E. unfold htol. rewrite E. rewrite (make_sample_spec p1 p2 wn Hs1 V1 V2 P2).
  destruct (ok_ord fs _ Ok_ Hf) as (Vs & Ve & Pe & B & O).
  assert (Be : 1 <= stp (s_end fs) <= fn) by (apply (valid_inv _ _ Ve); rewrite Pe; auto).
  assert (O2 : ord wn p2 = wn * year (s_end fs) + wn) by reflexivity.
  assert (Oe : ord fn (s_end fs) = fn * year (s_end fs) + stp (s_end fs)) by reflexivity.
  assert (Fn : fn <= 365) by (apply sub_cases in Hf; lia).
  split; intros Hc.
  - destruct (Z.ltb_spec (ord wn p2 - ord wn p1) 0); [reflexivity | lia].
  - destruct (Z.ltb_spec (ord wn p2 - ord wn p1) 0); [lia|].
    assert (T1 : m * (ord wn p2 - ord wn p1 + 1) <= s_nb fs - 1 + fn + m) by nia.
    assert (T : ord wn p2 - ord wn p1 + 1 < 32767).
    { assert (m <= 365) by nia. nia. }
    rewrite to_short_id by lia.
    assert (G : groups_from (s_nb fs) m skip <= ord wn p2 - ord wn p1 + 1).
    { unfold groups_from. assert (s_nb fs - skip <= m * (ord wn p2 - ord wn p1 + 1)) by nia.
      assert ((s_nb fs - skip) / m <= ord wn p2 - ord wn p1 + 1); [|lia].
      apply Z.div_le_upper_bound; lia. }
    cbn [rbind s_nb].
    destruct (map_vars_ok (htol_vector A meth skip m (s_nb fs) (ord wn p2 - ord wn p1 + 1)) (v_vars from)) as (l & El & Kl & Fl & Bl).
    { intros n v Hin. destruct (htol_vector_spec A meth skip m (s_nb fs) (ord wn p2 - ord wn p1 + 1) v) as (to & Et & _);
        try lia; eauto. }
    rewrite El. cbn [rbind]. exists l. split; auto. split; auto. split; auto. split.
    + intros n v' Hin. destruct (Bl n v' Hin) as (v & Hv & Ev).
      destruct (htol_vector_spec A meth skip m (s_nb fs) (ord wn p2 - ord wn p1 + 1) v) as (to & Et & Lt & _);
        [lia | rewrite (Len _ _ Hv); auto | lia | lia |]. rewrite Et in Ev. inversion Ev; subst. exact Lt.
    + intros n v Hv. destruct (Fl n v Hv) as (v' & Hv' & Ev). exists v'. split; auto.
      destruct (htol_vector_spec A meth skip m (s_nb fs) (ord wn p2 - ord wn p1 + 1) v) as (to & Et & Lt & Rt);
        [lia | rewrite (Len _ _ (find_In _ _ _ Hv)); auto | lia | lia |]. rewrite Et in Ev. inversion Ev; subst. exact Rt.
Qed.
End Htol.
End L.
