(** The change of periodicity in terms of periods: low to high, and the commands. *)
From Coq Require Import ZArith Ascii String List Bool Lia.
From Verif Require Import M_Base M_Time M_Names M_Lex M_Compile M_Bytes M_Exec M_Kdb M_Vars M_Freq S_Time S_Vars S_Freq
  L_Time L_Names L_Kdb L_Vars L_Vars2 L_Vars5 L_Freq L_Freq2 L_Freq3 L_Freq4.
Import ListNotations.
Open Scope Z_scope.
Local Arguments Z.add : simpl never.
Local Arguments Z.sub : simpl never.
Local Arguments Z.mul : simpl never.

Lemma ltoh_smpl_ok fs ws m fn : sample_ok fs -> sub_periods (per (s_start fs)) fn -> sub_periods (per (s_start ws)) (m * fn) ->
  1 < m -> year_start fs -> fits (per (s_start ws)) fs ->
  let c := per (s_start ws) in
  let t := mkS (mkP (year (s_start fs)) 1 c) (mkP (year (s_end fs)) (m * fn) c) (m * fn * (year (s_end fs) - year (s_start fs) + 1)) in
  ltoh_smpl fs ws = Ok (Some (t, m)) /\ sample_ok t /\ m * s_nb fs <= s_nb t /\
  ord (m * fn) (s_start t) = m * (ord fn (s_start fs) - 1) + 1.
Proof.
  intros H Hf Hw Hm Ys Fi c t. destruct (ok_ord fs _ H Hf) as (V1 & V2 & P & B & O).
  pose proof (valid_inv _ _ V1 Hf) as Bs. pose proof (valid_inv _ _ V2 ltac:(rewrite P; exact Hf)) as Be.
  pose proof (sub_pos _ _ Hf) as Pf. specialize (Fi _ Hw). unfold year_start in Ys.
  set (y1 := year (s_start fs)) in *. set (y2 := year (s_end fs)) in *.
  assert (O1 : ord fn (s_start fs) = fn * y1 + 1) by (unfold ord; rewrite Ys; reflexivity).
  assert (O2 : ord fn (s_end fs) = fn * y2 + M_Time.step (s_end fs)) by reflexivity.
  assert (Y : y1 <= y2) by nia.
  assert (V1' : valid_period (mkP y1 1 c)) by (exists (m * fn); cbn; split; auto; nia).
  assert (V2' : valid_period (mkP y2 (m * fn) c)) by (exists (m * fn); cbn; split; auto; nia).
  assert (T1 : ord (m * fn) (mkP y1 1 c) = m * fn * y1 + 1) by reflexivity.
  assert (T2 : ord (m * fn) (mkP y2 (m * fn) c) = m * fn * y2 + m * fn) by reflexivity.
  assert (M1 : 0 < m * fn) by nia.
  assert (NN : 0 <= m * fn * (y2 - y1)) by nia.
  split; [|split; [|split]].
  - unfold ltoh_smpl. rewrite (sub_nb _ _ Hf), (sub_nb _ _ Hw). cbn [rbind].
    destruct (Z.leb_spec (m * fn) 0); [nia|]. destruct (Z.leb_spec (m * fn) fn); [nia|].
    assert (Eq : Z.quot (m * fn) fn = m) by (apply Z.quot_mul; lia). rewrite Eq, Ys. fold y1.
    replace (1 - 1) with 0 by lia. rewrite Z.quot_0_l by lia.
    assert (Sh : shift (mkP y1 1 (per (s_start ws))) 0 = Ok (mkP y1 1 (per (s_start ws)))).
    { unfold shift. cbn [per]. rewrite (sub_nb _ _ Hw). cbn [rbind M_Time.step year]. destruct (Z.leb_spec 0 0); [|lia].
      replace (1 + 0 - 1) with 0 by lia. rewrite Z.quot_0_l, Z.rem_0_l by lia. do 2 f_equal. lia. }
    rewrite Sh. cbn [rbind]. fold y2. fold c.
    rewrite (make_sample_spec (mkP y1 1 c) (mkP y2 (m * fn) c) (m * fn) Hw V1' V2' eq_refl).
    rewrite T1, T2. destruct (Z.ltb_spec (m * fn * y2 + m * fn - (m * fn * y1 + 1)) 0); [nia|].
    do 3 f_equal. unfold t. f_equal. rewrite to_short_id; nia.
  - exists (Z.to_nat (m * fn * (y2 - y1 + 1) - 1)). unfold t. cbn [s_start s_end s_nb]. split; [nia|]. split; [exact V1'|]. split; [exact V2'|].
    split; [|nia]. apply (ord_steps _ _ _ (m * fn)); auto. rewrite T1, T2. nia.
  - unfold t. cbn [s_nb]. nia.
  - unfold t. cbn [s_start]. nia.
Qed.

(** Each period of the finer periodicity is part of one period. *)
Lemma part_of m q fn c : 0 < m -> sub_periods c fn -> sub_periods (per q) (m * fn) -> valid_period q ->
  exists p k, valid_period p /\ per p = c /\ part m p q k.
Proof.
  intros Hm Hc Hq V. pose proof (valid_inv _ _ V Hq) as B. pose proof (sub_pos _ _ Hc).
  pose proof (Z.div_mod (M_Time.step q - 1) m ltac:(lia)) as DM. pose proof (Z.mod_pos_bound (M_Time.step q - 1) m Hm) as MB.
  assert (0 <= (M_Time.step q - 1) / m < fn) by (split; [apply Z.div_pos; lia|apply Z.div_lt_upper_bound; lia]).
  exists (mkP (year q) ((M_Time.step q - 1) / m + 1) c), ((M_Time.step q - 1) mod m + 1).
  split; [exists fn; cbn; split; auto; lia|]. split; auto. exists fn. cbn. repeat split; auto; lia.
Qed.
Lemma part_div m a k : 0 < m -> 1 <= k <= m -> (m * a + (k - 1)) / m = a /\ (m * a + (k - 1)) mod m = k - 1.
Proof.
  intros Hm K. replace (m * a + (k - 1)) with (k - 1 + a * m) by ring. rewrite Z.div_add, Z.mod_add by lia.
  rewrite Z.div_small, Z.mod_small by lia. lia.
Qed.

Lemma follows_ord p q nb : valid_period p -> sub_periods (per p) nb ->
  (follows p q <-> valid_period q /\ per q = per p /\ ord nb q = ord nb p + 1).
Proof.
  intros V Hs. split.
  - intros H. destruct (steps_ord 1 p q) with (nb := nb) as (P & Vq & O); auto.
    { econstructor; [exact H|constructor]. }
  - intros (Vq & P & O). pose proof (ord_steps 1 p q nb Hs V Vq P ltac:(lia)) as H. inversion H as [|n a b c F_ H1]; subst. inversion H1; subst. exact F_.
Qed.
Lemma follows_shift p q nb : valid_period p -> sub_periods (per p) nb -> follows p q -> shift p 1 = Ok q.
Proof.
  intros V Hs H. apply (follows_ord p q nb V Hs) in H. destruct H as (Vq & P & O).
  destruct (shift_spec p 1 nb Hs (valid_inv _ _ V Hs)) as (q' & E & P' & B & O'). rewrite E. f_equal.
  assert (Hs' : sub_periods (per q') nb) by (rewrite P'; auto).
  apply (valid_inj q' q nb); auto; [congruence|exists nb; auto|lia].
Qed.

Section L.
Context (A : arith).
Notation F := (F A). Notation na := (na A). Notation num := (num A).

Lemma in_sample_pos d q : sample_ok (v_smp d) -> in_sample A d q -> in_smp A d q.
Proof.
  intros Hok H. pose proof Hok as (n & Hn & (nb & Hs & Bs) & _). apply (between_ord _ nb _ Hok Hs) in H. destruct H as (V & P & B).
  exists (ord nb q - ord nb (s_start (v_smp d))). apply (position_ord _ nb q Hs P). split; auto.
  destruct (ok_ord _ nb Hok Hs) as (_ & _ & _ & _ & O). lia.
Qed.
Lemma pos_in_sample d q : sample_ok (v_smp d) -> valid_period q -> in_smp A d q -> in_sample A d q.
Proof.
  intros Hok V [i P]. pose proof Hok as (n & Hn & (nb & Hs & Bs) & _). pose proof (position_per _ _ _ P) as E.
  apply (position_ord _ nb q Hs E) in P. apply (between_ord _ nb _ Hok Hs). repeat split; auto; destruct (ok_ord _ nb Hok Hs) as (_ & _ & _ & _ & O); lia.
Qed.
Lemma value_in d n q x : sample_ok (v_smp d) -> valid_period q -> value A d n q = Some x -> in_sample A d q /\ has A d n.
Proof. intros Hok V H. destruct (value_has A _ _ _ _ H) as [H1 H2]. split; auto. apply pos_in_sample; auto. Qed.
Lemma value_out d n q : ~ has A d n -> value A d n q = None.
Proof. intros H. destruct (value A d n q) eqn:E; auto. apply value_has in E. tauto. Qed.
Lemma value_not_in d n q : sample_ok (v_smp d) -> valid_period q -> ~ in_sample A d q -> value A d n q = None.
Proof. intros Hok V H. destruct (value A d n q) eqn:E; auto. apply value_in in E; tauto. Qed.

Section Ltoh.
Context (meth : ltoh_method) (ty : ltoh_type) (from : vdb A) (ws : sample) (m fn : Z).
Hypothesis R : regular A from.
Hypothesis Hf : sub_periods (per (s_start (v_smp from))) fn.
Hypothesis Hw : sub_periods (per (s_start ws)) (m * fn).
Hypothesis Hm : 1 < m.
Hypothesis Ys : year_start (v_smp from).
Hypothesis Fi : fits (per (s_start ws)) (v_smp from).
Notation fs := (v_smp from).

(** The position of a part in the target. *)
Definition target : Z -> Z := fun i => m * i.
Lemma ltoh_core (G : list F -> Z -> F) :
  (forall v, let tnb := m * fn * (year (s_end fs) - year (s_start fs) + 1) in
     Z.of_nat (length v) = s_nb fs -> s_nb fs * m <= tnb -> exists to, ltoh_vector A meth ty m (s_nb fs) tnb v = Ok to /\
     Z.of_nat (length to) = tnb /\ forall u, 0 <= u < tnb -> read A to u = Some (G v u)) ->
  exists to, ltoh A meth ty from ws = Ok to /\ regular A to /\ per (s_start (v_smp to)) = per (s_start ws) /\
    keys (v_vars to) = keys (v_vars from) /\ begins m (v_smp to) /\
    (forall p, valid_period p -> per p = per (s_start fs) ->
       ((exists q k, part m p q k /\ in_sample A to q) <-> year (s_start fs) <= year p <= year (s_end fs))) /\
    (forall p q k, in_sample A from p -> part m p q k -> in_sample A to q) /\
    forall n v p q k, find n (v_vars from) = Some v -> valid_period p -> part m p q k -> in_sample A to q ->
      value A to n q = Some (G v (m * (ord fn p - ord fn (s_start fs)) + (k - 1))).
Proof.
  intros HG. cbv zeta in HG. pose proof R as (Ok_ & ND & Len).
  destruct (ltoh_smpl_ok fs ws m fn Ok_ Hf Hw Hm Ys Fi) as (E & Okt & Le & Ot). cbn zeta in *.
  set (t := mkS _ _ _) in *. assert (Ht : sub_periods (per (s_start t)) (m * fn)) by exact Hw.
  change (m * fn * (year (s_end fs) - year (s_start fs) + 1)) with (s_nb t) in HG.
  destruct (ok_ord t _ Okt Ht) as (Vt1 & Vt2 & Pt & Bt & OtE).
  destruct (ok_ord fs _ Ok_ Hf) as (V1 & V2 & P & B & O).
  unfold ltoh. rewrite E. cbn [rbind].
  destruct (map_vars_ok A (ltoh_vector A meth ty m (s_nb fs) (s_nb t)) (v_vars from)) as (l & El & Kl & Fl & Bl).
  { intros n v Hin. destruct (HG v (Len _ _ Hin) ltac:(lia)) as (to & Et & _). eauto. }
  rewrite El. cbn [rbind]. eexists. split; [reflexivity|].
  assert (Rt : regular A (mkVdb t l)).
  { split; [exact Okt|]. split; cbn [v_vars v_smp]; [rewrite Kl; exact ND|]. intros n v' Hin. destruct (Bl _ _ Hin) as (v & Hv & Ev).
    destruct (HG v (Len _ _ Hv) ltac:(lia)) as (to & Et & Lt & _). rewrite Et in Ev. inversion Ev; subst. exact Lt. }
  split; [exact Rt|]. split; [reflexivity|]. split; [exact Kl|]. split; [|split; [|split]].
  - exists (s_start fs). split; auto. exists fn. cbn. repeat split; auto; try lia. unfold year_start in Ys. rewrite Ys. lia.
  - intros p Vp Pp. assert (Hp : sub_periods (per p) fn) by (rewrite Pp; auto). pose proof (valid_inv _ _ Vp Hp) as Bp.
    split.
    + intros (q & k & Pq & Iq). unfold in_sample in Iq. cbn [v_smp] in Iq. apply (between_ord t _ _ Okt Ht) in Iq. destruct Iq as (Vq & Eq & Bq).
      destruct Pq as (np & H1 & H2 & Y & K & St). rewrite <- Y. pose proof (valid_inv _ _ Vq H2) as Bsq.
      pose proof (sub_det _ _ _ Hp H1). subst np. unfold t in Bq. cbn [s_start s_end] in Bq. unfold ord in Bq. cbn [year M_Time.step] in Bq. nia.
    + intros Yp. destruct (part_exists m p 1 fn _ Hp Vp Hw ltac:(lia) ltac:(lia)) as (q & Pq & Vq & Eq & Oq). exists q, 1. split; auto.
      unfold in_sample. cbn [v_smp]. apply (between_ord t _ _ Okt Ht). split; auto. split; auto.
      destruct Pq as (np & H1 & H2 & Y & K & St). pose proof (valid_inv _ _ Vq H2) as Bsq. pose proof (sub_det _ _ _ Hp H1). subst np.
      unfold t. cbn [s_start s_end]. unfold ord. cbn [year M_Time.step]. nia.
  - intros p q k Ip Pq. apply (between_ord fs _ _ Ok_ Hf) in Ip. destruct Ip as (Vp & Ep & Bp).
    assert (Hp : sub_periods (per p) fn) by (rewrite Ep; auto).
    destruct (part_ord m p q k fn Hp Pq ltac:(lia)) as (Hq & K & Oq). pose proof (part_valid _ _ _ _ Vp Pq) as Vq.
    unfold in_sample. cbn [v_smp]. apply (between_ord t _ _ Okt Ht). split; auto. split.
    { eapply sub_inj; eauto. }
    rewrite OtE, Ot. nia.
  - intros n v p q k Hv Vp Pq Iq. destruct (Fl n v Hv) as (v' & Hv' & Ev).
    destruct (HG v (Len _ _ (find_In _ _ _ Hv)) ltac:(lia)) as (to & Et & Lt & Rd). rewrite Et in Ev. inversion Ev; subst to.
    unfold in_sample in Iq. cbn [v_smp] in Iq. apply (between_ord t _ _ Okt Ht) in Iq. destruct Iq as (Vq & Eq & Bq).
    pose proof Pq as (np & H1 & H2 & _). rewrite Eq in H2. pose proof (sub_det _ _ _ Ht H2). assert (np = fn) by nia. subst np.
    destruct (part_ord m p q k fn H1 Pq ltac:(lia)) as (Hq & K & Oq).
    rewrite (value_read A _ (m * fn) n v' q Rt) by auto. cbn [v_smp]. rewrite Rd by lia. do 2 f_equal. lia.
Qed.

(** The value of a variable of the source, by its position. *)
Lemma source_value n v p : find n (v_vars from) = Some v -> valid_period p -> per p = per (s_start fs) ->
  value A from n p = read A v (ord fn p - ord fn (s_start fs)).
Proof. intros Hv Vp Ep. now apply value_read. Qed.

Lemma ltoh_step_ok : meth = LTOH_STEP -> exists to, ltoh A meth ty from ws = Ok to /\ regular A to /\
  per (s_start (v_smp to)) = per (s_start ws) /\ keys (v_vars to) = keys (v_vars from) /\ begins m (v_smp to) /\
  (forall p q k, in_sample A from p -> part m p q k -> in_sample A to q) /\
  forall n p q k, has A from n -> valid_period p -> part m p q k -> in_sample A to q ->
    value A to n q = Some (match value A from n p with Some x => if num x then converted A ty m x else na | None => na end).
Proof.
  intros Em. pose proof R as (Ok_ & ND & Len).
  destruct (ltoh_core (fun v u => match read A v (u / m) with Some x => if num x then converted A ty m x else na | None => na end))
    as (to & E & Rt & Pt & Kt & Bt & Yr & In_ & Vt).
  { intros v tnb Lv T. subst tnb. rewrite Em. destruct (step_vector A ty m (s_nb fs) (m * fn * (year (s_end fs) - year (s_start fs) + 1)) v) as (to & -> & L & Rd); auto; try lia. eauto. }
  exists to. do 5 (split; [assumption|]). split; [exact In_|]. intros n p q k Hn Vp Pq Iq.
  destruct (find_some_in A n _ Hn) as [v Hv]. rewrite (Vt n v p q k Hv Vp Pq Iq).
  pose proof Rt as (Okt & _). apply (between_ord _ (m * fn) _ Okt) in Iq; [|rewrite Pt; auto]. destruct Iq as (Vq & Eq & _).
  pose proof Pq as (np & H1 & H2 & _ & K & _). rewrite Eq, Pt in H2. pose proof (sub_det _ _ _ Hw H2). assert (np = fn) by nia. subst np.
  rewrite (source_value n v p Hv Vp) by (eapply sub_inj; eauto).
  destruct (part_div m (ord fn p - ord fn (s_start fs)) k) as [-> _]; auto; lia.
Qed.
(** Linear, flow. *)
Lemma next_value n v p p' : find n (v_vars from) = Some v -> valid_period p -> per p = per (s_start fs) -> shift p 1 = Ok p' ->
  value A from n p' = read A v (ord fn p - ord fn (s_start fs) + 1).
Proof.
  intros Hv Vp Ep Sh. assert (Hp : sub_periods (per p) fn) by (rewrite Ep; auto).
  destruct (shift_spec p 1 fn Hp (valid_inv _ _ Vp Hp)) as (p1 & E1 & P1 & B1 & O1). rewrite Sh in E1. inversion E1; subst p1.
  rewrite (source_value n v p'); auto; [|exists fn; rewrite P1; auto|congruence]. f_equal. lia.
Qed.
Lemma ltoh_lin_flow_ok : meth = LTOH_LIN -> ty = LTOH_FLOW -> exists to, ltoh A meth ty from ws = Ok to /\ regular A to /\
  per (s_start (v_smp to)) = per (s_start ws) /\ keys (v_vars to) = keys (v_vars from) /\ begins m (v_smp to) /\
  (forall p q k, in_sample A from p -> part m p q k -> in_sample A to q) /\
  forall n p q k, has A from n -> valid_period p -> part m p q k -> in_sample A to q ->
    (forall x p' x', value A from n p = Some x -> num x = true -> shift p 1 = Ok p' -> value A from n p' = Some x' -> num x' = true ->
       value A to n q = Some (dvd A x (ofZ A m))) /\
    (forall p', shift p 1 = Ok p' -> (forall x', value A from n p' = Some x' -> num x' = false) -> value A to n q = Some na).
Proof.
  intros Em Et. pose proof R as (Ok_ & ND & Len).
  destruct (ltoh_core (fun v u => match read A v (u / m) with Some x => if pair_at A v (u / m) then dvd A x (ofZ A m) else na | None => na end))
    as (to & E & Rt & Pt & Kt & Bt & Yr & In_ & Vt).
  { intros v tnb Lv T. subst tnb. rewrite Em, Et. destruct (lin_flow_vector A m (s_nb fs) (m * fn * (year (s_end fs) - year (s_start fs) + 1)) v) as (to & -> & L & Rd); auto; try lia. eauto. }
  exists to. do 5 (split; [assumption|]). split; [exact In_|]. intros n p q k Hn Vp Pq Iq.
  destruct (find_some_in A n _ Hn) as [v Hv]. rewrite (Vt n v p q k Hv Vp Pq Iq).
  pose proof Rt as (Okt & _). apply (between_ord _ (m * fn) _ Okt) in Iq; [|rewrite Pt; auto]. destruct Iq as (Vq & Eq & _).
  pose proof Pq as (np & H1 & H2 & _ & K & _). rewrite Eq, Pt in H2. pose proof (sub_det _ _ _ Hw H2). assert (np = fn) by nia. subst np.
  assert (Ep : per p = per (s_start fs)) by (eapply sub_inj; eauto).
  destruct (part_div m (ord fn p - ord fn (s_start fs)) k) as [-> _]; auto; try lia. split.
  - intros x p' x' Vx Nx Sh Vx' Nx'. rewrite (source_value n v p Hv Vp Ep) in Vx. rewrite (next_value n v p p' Hv Vp Ep Sh) in Vx'.
    rewrite Vx. unfold pair_at, isnum. rewrite Vx, Vx', Nx, Nx'. reflexivity.
  - intros p' Sh Hx. specialize (Hx) . unfold pair_at. unfold isnum at 2.
    rewrite (next_value n v p p' Hv Vp Ep Sh) in Hx. destruct (read A v (ord fn p - ord fn (s_start fs) + 1)) as [x'|].
    + rewrite (Hx x' eq_refl), andb_false_r. now destruct (read A v (ord fn p - ord fn (s_start fs))).
    + rewrite andb_false_r. now destruct (read A v (ord fn p - ord fn (s_start fs))).
Qed.
End Ltoh.

(** * The commands *)
Lemma command_ok conv asked from ws to q0 : asked <> [] -> conv from (v_smp ws) = Ok to -> regular A ws -> regular A to ->
  in_sample A ws q0 -> in_sample A to q0 ->
  exists ws', command A conv asked (Some from) (Some ws) = Ok ws' /\ regular A ws' /\ v_smp ws' = v_smp ws /\
    (forall n, has A ws' n <-> has A ws n \/ has A to n) /\
    (forall n q x, in_sample A ws q -> value A to n q = Some x -> value A ws' n q = Some x) /\
    (forall n q, ~ has A to n -> value A ws' n q = value A ws n q) /\
    (forall n q, valid_period q -> ~ in_sample A to q -> has A ws n -> value A ws' n q = value A ws n q) /\
    (forall n q, in_sample A ws q -> ~ in_sample A to q -> has A to n -> ~ has A ws n -> value A ws' n q = Some na).
Proof.
  intros Na Ec Rw Rt I1 I2. unfold command. destruct asked; [congruence|]. rewrite Ec. cbn [rbind].
  pose proof Rw as (Ow & _). pose proof Rt as (Ot & _).
  destruct (merge_into_ok A ws to q0 Rw Rt (in_sample_pos _ _ Ow I1) (in_sample_pos _ _ Ot I2)) as (ws' & Em & Rw' & Sw & Hh & H1 & H2 & H3).
  exists ws'. split; auto. split; auto. split; auto. split; auto. split; [|split; [|split]].
  - intros n q x Iq. apply H1. now apply in_sample_pos.
  - intros n q Nh. assert (Vn : value A to n q = None) by (now apply value_out).
    assert (D : has A ws n \/ ~ has A ws n).
    { unfold has. destruct (find n (v_vars ws)) eqn:Ef; [left|right]; [apply find_In in Ef; apply in_map_iff; eexists; split; eauto; reflexivity|now apply find_None]. }
    destruct D as [D|D]; [now apply H2|]. rewrite !value_out; auto. intros C. apply Hh in C. tauto.
  - intros n q Vq Nq Hn. apply H2; auto. apply value_not_in; auto.
  - intros n q Iq Nq Ht Hn. apply H3; auto; [|now apply in_sample_pos].
    destruct (value A to n q) eqn:Ev; auto. exfalso. apply Nq.
    apply value_has in Ev. apply pos_in_sample; auto; [|tauto].
    pose proof Ow as (k & Hk & (nb & Hs & Bs) & _). apply (between_ord _ nb _ Ow Hs) in Iq. tauto.
Qed.
Lemma command_disjoint conv asked from ws to : asked <> [] -> conv from (v_smp ws) = Ok to -> regular A ws -> regular A to ->
  (forall q, valid_period q -> ~ (in_sample A ws q /\ in_sample A to q)) -> command A conv asked (Some from) (Some ws) = Throw.
Proof.
  intros Na Ec Rw Rt H. unfold command. destruct asked; [congruence|]. rewrite Ec. cbn [rbind]. apply merge_into_disjoint; auto.
  intros q [I1 I2]. pose proof Rw as (Ow & _). pose proof Rt as (Ot & _).
  (* the first period of the later sample *)
  pose proof Ow as (kw & Kw & (nb & Hs & Bs) & _). destruct I1 as [i Pi], I2 as [j Pj].
  pose proof (position_per _ _ _ Pi) as Ei. pose proof (position_per _ _ _ Pj) as Ej.
  assert (Ht : sub_periods (per (s_start (v_smp to))) nb) by (rewrite <- Ej, Ei; auto).
  apply (position_ord _ nb q Hs Ei) in Pi. apply (position_ord _ nb q Ht Ej) in Pj.
  destruct (ok_ord _ nb Ow Hs) as (V1 & _ & P1 & B1 & O1), (ok_ord _ nb Ot Ht) as (V2 & _ & P2 & B2 & O2).
  destruct (Z.le_ge_cases (ord nb (s_start (v_smp ws))) (ord nb (s_start (v_smp to)))).
  - apply (H (s_start (v_smp to)) V2). split; apply (between_ord _ nb); auto; repeat split; auto; try lia. congruence.
  - apply (H (s_start (v_smp ws)) V1). split; apply (between_ord _ nb); auto; repeat split; auto; try lia. congruence.
Qed.
End L.
