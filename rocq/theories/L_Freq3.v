(** The change of periodicity in terms of periods: the converted database from high to low, and the merge. *)
From Coq Require Import ZArith Ascii String List Bool Lia.
From Verif Require Import M_Base M_Time M_Names M_Lex M_Compile M_Bytes M_Exec M_Kdb M_Vars M_Freq S_Time S_Vars S_Freq
  L_Time L_Names L_Kdb L_Vars L_Vars2 L_Vars5 L_Freq L_Freq2.
Import ListNotations.
Open Scope Z_scope.
Local Arguments Z.add : simpl never.
Local Arguments Z.sub : simpl never.
Local Arguments Z.mul : simpl never.

Lemma sub_inj c c' nb : sub_periods c nb -> sub_periods c' nb -> c = c'.
Proof. intros H H'. destruct H; inversion H'; reflexivity. Qed.
Lemma ok_real s : sample_ok s -> real_sample s.
Proof.
  intros H. pose proof H as (n & Hn & V1 & V2 & St & E). pose proof V1 as (nb & Hs & B).
  destruct (ok_ord s nb H Hs) as (_ & _ & P & B' & O). split; [lia|].
  rewrite (difference_spec _ _ nb) by (congruence || (rewrite P; auto)). f_equal. lia.
Qed.

Section L.
Context (A : arith).
Notation F := (F A). Notation na := (na A). Notation num := (num A).

Lemma value_read d nb n v q : regular A d -> sub_periods (per (s_start (v_smp d))) nb -> find n (v_vars d) = Some v ->
  per q = per (s_start (v_smp d)) -> value A d n q = read A v (ord nb q - ord nb (s_start (v_smp d))).
Proof.
  intros (Ok_ & ND & Len) Hs Hv E. unfold value. rewrite Hv. pose proof (Len _ _ (find_In _ _ _ Hv)) as Lv.
  pose proof (position_ord (v_smp d) nb q Hs E) as P. set (i := ord nb q - ord nb (s_start (v_smp d))) in *.
  destruct (M_Time.position (v_smp d) q) as [j| |] eqn:Ep.
  - destruct (proj1 (P j) eq_refl) as [-> B]. rewrite read_nth by lia. reflexivity.
  - symmetry. apply read_out. destruct (Z.ltb_spec i 0), (Z.leb_spec (s_nb (v_smp d)) i); try lia.
    assert (X : @Throw Z = Ok i) by (apply P; lia). discriminate.
  - symmetry. apply read_out. destruct (Z.ltb_spec i 0), (Z.leb_spec (s_nb (v_smp d)) i); try lia.
    assert (X : @UB Z = Ok i) by (apply P; lia). discriminate.
Qed.
Lemma value_has d n q x : value A d n q = Some x -> has A d n /\ exists i, M_Time.position (v_smp d) q = Ok i.
Proof.
  unfold value. destruct (find n (v_vars d)) eqn:E; [|discriminate]. destruct (M_Time.position (v_smp d) q) eqn:P; try discriminate.
  intros _. split; eauto. unfold has. apply find_In in E. apply in_map_iff. eexists; split; eauto. reflexivity.
Qed.
Lemma value_some d n q i : regular A d -> has A d n -> M_Time.position (v_smp d) q = Ok i -> exists x, value A d n q = Some x.
Proof.
  intros (Ok_ & ND & Len) H P. destruct (find_some_in A n _ H) as [v Hv]. unfold value. rewrite Hv, P.
  pose proof (Len _ _ (find_In _ _ _ Hv)) as Lv. pose proof Ok_ as (k & Hk & V1 & _). destruct V1 as (nb & Hs & B).
  apply (position_ord (v_smp d) nb q Hs (position_per _ _ _ P)) in P.
  destruct (nth_error v (Z.to_nat i)) eqn:N; eauto. apply nth_error_None in N. lia.
Qed.

(** The values on the parts of a period are a slice of the vector. *)
Lemma values_slice m d n v p xs wn : regular A d -> 1 < m -> sub_periods (per (s_start (v_smp d))) (m * wn) ->
  find n (v_vars d) = Some v -> values_in A m d n p xs ->
  let f := m * (ord wn p - 1) + 1 - ord (m * wn) (s_start (v_smp d)) in
  sub_periods (per p) wn /\ 0 <= f /\ f + m <= s_nb (v_smp d) /\ xs = slice A f m v.
Proof.
  intros Rd Hm Hs Hv (Lx & Vp & Hx) f. pose proof Rd as (Ok_ & ND & Len). pose proof (Len _ _ (find_In _ _ _ Hv)) as Lv.
  assert (X : forall k x, nth_error xs k = Some x ->
    sub_periods (per p) wn /\ read A v (f + Z.of_nat k) = Some x).
  { intros k x N. destruct (Hx k x N) as (q & Pq & Vq). destruct (value_has _ _ _ _ Vq) as (_ & i & Pi).
    pose proof (position_per _ _ _ Pi) as Eq. pose proof Pq as (np & H1 & H2 & _). rewrite Eq in H2.
    pose proof (sub_det _ _ _ Hs H2) as En. assert (np = wn) by nia. subst np. split; auto.
    destruct (part_ord m p q _ wn H1 Pq ltac:(lia)) as (_ & K & O).
    rewrite (value_read d (m * wn) n v q Rd Hs Hv Eq) in Vq. rewrite <- Vq. f_equal. unfold f. lia. }
  assert (E0 : exists x, nth_error xs 0 = Some x).
  { destruct xs; cbn in Lx; [lia|]. eexists; reflexivity. }
  assert (El : exists x, nth_error xs (Z.to_nat (m - 1)) = Some x).
  { destruct (nth_error xs (Z.to_nat (m - 1))) eqn:N; eauto. apply nth_error_None in N. lia. }
  destruct E0 as [x0 E0], El as [xl El]. destruct (X _ _ E0) as [W R0], (X _ _ El) as [_ Rl].
  apply read_Some in R0, Rl. split; auto. split; [lia|]. split; [lia|].
  apply (read_ext A). intros t. destruct (Z.ltb_spec t 0).
  { rewrite !read_out by lia. reflexivity. }
  rewrite (read_nth A (slice A f m v)) by lia. rewrite slice_nth by lia.
  destruct (Z.ltb_spec (Z.of_nat (Z.to_nat t)) m).
  - rewrite read_nth by lia. destruct (nth_error xs (Z.to_nat t)) as [x|] eqn:N; [|apply nth_error_None in N; lia].
    apply X in N. destruct N as [_ N]. congruence.
  - apply read_out. lia.
Qed.
Lemma covered_ord m s p wn : sample_ok s -> 1 < m -> sub_periods (per (s_start s)) (m * wn) ->
  (covered m s p <-> valid_period p /\ sub_periods (per p) wn /\
     ord (m * wn) (s_start s) <= m * (ord wn p - 1) + 1 /\ m * ord wn p <= ord (m * wn) (s_end s)).
Proof.
  intros Hok Hm Hs. split.
  - intros (V & C). destruct (C 1 ltac:(lia)) as (q1 & P1 & B1), (C m ltac:(lia)) as (q2 & P2 & B2).
    apply (between_ord s _ _ Hok Hs) in B1, B2. destruct B1 as (_ & E1 & B1), B2 as (_ & E2 & B2).
    pose proof P1 as (np & H1 & H2 & _). rewrite E1 in H2. pose proof (sub_det _ _ _ Hs H2).
    assert (np = wn) by nia. subst np. destruct (part_ord m p _ _ wn H1 P1 ltac:(lia)) as (_ & _ & O1).
    destruct (part_ord m p _ _ wn H1 P2 ltac:(lia)) as (_ & _ & O2). repeat split; auto; lia.
  - intros (V & Hp & B1 & B2). split; auto. intros k K.
    destruct (part_exists m p k wn _ Hp V Hs ltac:(lia) K) as (q & Pq & Vq & Eq & Oq). exists q. split; auto.
    apply (between_ord s _ _ Hok Hs). repeat split; auto; lia.
Qed.

Section Htol.
Context (meth : htol_method) (from : vdb A) (ws : sample) (m wn : Z).
Hypothesis R : regular A from.
Hypothesis Hw : sub_periods (per (s_start ws)) wn.
Hypothesis Hf : sub_periods (per (s_start (v_smp from))) (m * wn).
Hypothesis Hm : 1 < m.
Hypothesis D : wn = 1 \/ begins m (v_smp from).
Notation fs := (v_smp from).

Lemma htol_defined p : covered m fs p -> exists to, htol A meth from ws = Ok to /\ between (s_start (v_smp to)) (s_end (v_smp to)) p.
Proof.
  intros C. pose proof R as (Ok_ & _). apply (covered_ord m fs p wn Ok_ Hm Hf) in C. destruct C as (V & Hp & B1 & B2).
  destruct (htol_core A meth from ws m wn R Hw Hf Hm D) as (p1 & skip & Bs & V1 & P1 & O1 & _ & Y).
  destruct (ok_ord fs _ Ok_ Hf) as (Vs & Ve & Pe & B & O).
  pose proof (valid_inv _ _ Ve ltac:(rewrite Pe; exact Hf)) as Be.
  assert (O2 : ord wn (last_of (per (s_start ws)) wn fs) = wn * year (s_end fs) + wn) by reflexivity.
  assert (Oe : ord (m * wn) (s_end fs) = m * wn * year (s_end fs) + M_Time.step (s_end fs)) by reflexivity.
  assert (C1 : ord wn p1 <= ord wn p) by nia.
  assert (C2 : ord wn p <= ord wn (last_of (per (s_start ws)) wn fs)) by nia.
  destruct (Y ltac:(lia)) as (l & El & N & _). cbn [s_nb] in N. eexists. split; [exact El|]. cbn [v_smp s_start s_end].
  pose proof (sub_pos _ _ Hw).
  assert (V2 : valid_period (last_of (per (s_start ws)) wn fs)) by (exists wn; cbn; split; auto; lia).
  assert (E : per p = per p1) by (rewrite P1; eapply sub_inj; eauto).
  exists (Z.to_nat (ord wn p - ord wn p1)), (Z.to_nat (ord wn (last_of (per (s_start ws)) wn fs) - ord wn p)). split.
  - apply (ord_steps _ _ _ wn); auto; try (rewrite P1; auto). lia.
  - apply (ord_steps _ _ _ wn); auto; [rewrite E, P1; reflexivity|lia].
Qed.

Lemma htol_values to : htol A meth from ws = Ok to ->
  regular A to /\ per (s_start (v_smp to)) = per (s_start ws) /\ keys (v_vars to) = keys (v_vars from) /\
  (forall n p xs, values_in A m from n p xs -> value A to n p = Some (aggregated A meth xs)) /\
  (forall n p, valid_period p -> ~ covered m fs p -> value A to n p = None \/ value A to n p = Some na).
Proof.
  intros Eto. pose proof R as (Ok_ & ND & Len).
  destruct (htol_core A meth from ws m wn R Hw Hf Hm D) as (p1 & skip & Bs & V1 & P1 & O1 & N & Y).
  destruct (ok_ord fs _ Ok_ Hf) as (Vs & Ve & Pe & B & O).
  pose proof (valid_inv _ _ Ve ltac:(rewrite Pe; exact Hf)) as Be. pose proof (sub_pos _ _ Hw) as Pw.
  set (p2 := last_of (per (s_start ws)) wn fs) in *.
  assert (V2 : valid_period p2) by (exists wn; cbn; split; auto; lia).
  assert (Hs1 : sub_periods (per p1) wn) by (rewrite P1; auto).
  destruct (Z.ltb_spec (ord wn p2) (ord wn p1)) as [C|C]; [rewrite (N C) in Eto; discriminate|].
  destruct (Y C) as (l & El & Nt & Kl & Ll & Fl). rewrite El in Eto. injection Eto as <-. cbn [s_nb] in *.
  assert (O2 : ord wn p2 = wn * year (s_end fs) + wn) by reflexivity.
  assert (Oe : ord (m * wn) (s_end fs) = m * wn * year (s_end fs) + M_Time.step (s_end fs)) by reflexivity.
  assert (Rt : regular A (mkVdb (mkS p1 p2 (ord wn p2 - ord wn p1 + 1)) l)).
  { split; [|split].
    - exists (Z.to_nat (ord wn p2 - ord wn p1)). cbn [v_smp s_start s_end s_nb]. repeat split; auto; try lia.
      apply (ord_steps _ _ _ wn); auto. lia.
    - cbn [v_vars]. rewrite Kl. exact ND.
    - cbn [v_vars v_smp s_nb]. exact Ll. }
  split; [exact Rt|]. cbn [v_smp v_vars s_start]. split; [exact P1|]. split; [exact Kl|]. split.
  - intros n p xs Hx.
    assert (Hn : has A from n).
    { destruct Hx as (Lx & _ & Hx). destruct xs as [|x xs]; cbn in Lx; [lia|]. destruct (Hx 0%nat x eq_refl) as (q & _ & Vq).
      apply value_has in Vq. tauto. }
    destruct (find_some_in A n _ Hn) as [v Hv]. destruct (Fl n v Hv) as (v' & Hv' & Rd).
    pose proof Hx as (_ & Vp & _).
    destruct (values_slice m from n v p xs wn R Hm Hf Hv Hx) as (Hp & F0 & F1 & ->).
    assert (E : per p = per p1) by (eapply sub_inj; eauto).
    rewrite (value_read _ wn n v' p Rt) by auto. cbn [v_smp s_start].
    assert (Ge : ord wn p1 <= ord wn p) by nia.
    assert (Le : ord wn p <= ord wn p2) by nia.
    rewrite Rd by lia. f_equal.
    assert (EqF : skip + (ord wn p - ord wn p1) * m = m * (ord wn p - 1) + 1 - ord (m * wn) (s_start fs)) by nia.
    rewrite EqF. destruct (Z.ltb_spec (ord wn p - ord wn p1) (groups_from (s_nb fs) m skip)) as [G|G]; auto.
    exfalso. unfold groups_from in G. assert (ord wn p - ord wn p1 + 1 <= (s_nb fs - skip) / m); [|lia].
    apply Z.div_le_lower_bound; [lia|]. nia.
  - intros n p Vp NC. unfold value at 1 2. cbn [v_vars v_smp]. destruct (find n l) as [v'|] eqn:Hv'; [|auto].
    assert (Hn : has A from n).
    { unfold has. rewrite <- Kl. apply find_In in Hv'. apply in_map_iff. exists (n, v'). auto. }
    destruct (find_some_in A n _ Hn) as [v Hv]. destruct (Fl n v Hv) as (v'' & Hv'' & Rd). rewrite Hv' in Hv''. injection Hv'' as <-.
    destruct (M_Time.position (mkS p1 p2 (ord wn p2 - ord wn p1 + 1)) p) as [i| |] eqn:Pi; auto.
    pose proof (position_per _ _ _ Pi) as Ep. cbn [s_start] in Ep.
    apply (position_ord (mkS p1 p2 (ord wn p2 - ord wn p1 + 1)) wn p Hs1 Ep) in Pi. cbn [s_start s_nb] in Pi. destruct Pi as [-> Bi].
    right. rewrite <- (read_nth A v') by lia. rewrite Rd by lia.
    destruct (Z.ltb_spec (ord wn p - ord wn p1) (groups_from (s_nb fs) m skip)) as [G|G]; auto.
    exfalso. apply NC. apply (covered_ord m fs p wn Ok_ Hm Hf). repeat split; auto; [congruence|nia|].
    unfold groups_from in G. assert (H1 : ord wn p - ord wn p1 + 1 <= (s_nb fs - skip) / m) by lia.
    assert (H2 : m * (ord wn p - ord wn p1 + 1) <= s_nb fs - skip).
    { eapply Z.le_trans; [apply Z.mul_le_mono_nonneg_l; [lia|exact H1]|]. apply Z.mul_div_le. lia. }
    nia.
Qed.
End Htol.

(** * The merge in the workspace *)
Lemma merge_vars_ok nb n a b : 0 <= n -> 0 <= a -> 0 <= b -> a + n <= nb -> forall l ws, NoDup (keys l) ->
  (forall k v, In (k, v) l -> b + n <= Z.of_nat (length v)) -> (forall k v, In (k, v) ws -> Z.of_nat (length v) = nb) ->
  sorted ws ->
  exists ws', merge_vars A l nb n a b ws = Ok ws' /\ sorted ws' /\ (forall k v, In (k, v) ws' -> Z.of_nat (length v) = nb) /\
    forall k, find k ws' =
      match find k l with
      | None => find k ws
      | Some v => copy_range A (Z.to_nat n) (match find k ws with Some o => o | None => repeat na (Z.to_nat nb) end) v a b
      end.
Proof.
  intros Hn Ha Hb Hab. induction l as [|[k v] l IH]; intros ws ND Hl Hw NW; cbn [merge_vars].
  - exists ws. repeat split; auto.
  - set (old := match find k ws with Some o => o | None => repeat na (Z.to_nat nb) end).
    assert (Lo : Z.of_nat (length old) = nb).
    { unfold old. destruct (find k ws) eqn:E; [eapply Hw, find_In; eauto|]. rewrite repeat_length. lia. }
    destruct (copy_range_spec A (Z.to_nat n) old v a b) as (new & En & Ln & _); try lia.
    { specialize (Hl k v (or_introl eq_refl)). lia. }
    rewrite En. change (NoDup (k :: keys l)) in ND. apply NoDup_cons_iff in ND. destruct ND as [Nk ND'].
    destruct (IH (M_Kdb.put k new ws)) as (ws' & E & NW' & L' & Fi); auto.
    + intros k' v' H. apply (Hl k'). right; auto.
    + intros k' v' H. apply put_in in H. destruct H as [H|H]; [injection H as -> ->; lia|eapply Hw; eauto].
    + now apply sorted_put.
    + exists ws'. split; auto. split; auto. split; auto. intros k'. rewrite Fi. cbn [find].
      destruct (str_eqb k' k) eqn:Ek.
      * apply str_eqb_iff in Ek. subst k'. assert (X : find k l = None) by (apply find_None; auto). rewrite X, find_put_eq.
        fold old. now rewrite En.
      * rewrite find_put, Ek. reflexivity.
Qed.

Definition in_smp (d : vdb A) (q : period) : Prop := exists i, M_Time.position (v_smp d) q = Ok i.

(** The merge: the values of [to] on the common periods, the rest as before. *)
Lemma merge_into_ok ws to q0 : regular A ws -> regular A to -> in_smp ws q0 -> in_smp to q0 ->
  exists ws', merge_into A ws to = Ok ws' /\ regular A ws' /\ v_smp ws' = v_smp ws /\
    (forall n, has A ws' n <-> has A ws n \/ has A to n) /\
    (forall n q x, in_smp ws q -> value A to n q = Some x -> value A ws' n q = Some x) /\
    (forall n q, value A to n q = None -> has A ws n -> value A ws' n q = value A ws n q) /\
    (forall n q, value A to n q = None -> has A to n -> ~ has A ws n -> in_smp ws q -> value A ws' n q = Some na).
Proof.
  intros Rw Rt Hq1 Hq2. pose proof Rw as (Ow & Sw & Lw). pose proof Rt as (Ot & St & Lt).
  pose proof (ok_real _ Ow) as Ew. pose proof (ok_real _ Ot) as Et.
  destruct Hq1 as [i0 I0], Hq2 as [j0 J0].
  destruct (overlap_throw _ _ Ew Et) as [OT NU]. unfold merge_into.
  destruct (overlap (v_smp ws) (v_smp to)) as [[[n a] b]| |] eqn:Eo; [|exfalso; apply (proj1 OT eq_refl q0 i0 j0); auto|congruence].
  destruct (overlap_spec _ _ _ _ _ Ew Et Eo) as (Hn & Ha & Hb & Han & Hbn & Pos). cbn [rbind].
  destruct (merge_vars_ok (s_nb (v_smp ws)) n a b) with (l := v_vars to) (ws := v_vars ws) as (l & El & Sl & Ll & Fl); try lia; auto.
  { apply sorted_NoDup. exact St. }
  rewrite El. cbn [rbind]. eexists. split; [reflexivity|].
  assert (Rw' : regular A (mkVdb (v_smp ws) l)).
  { split; [exact Ow|]. split; [exact Sl|exact Ll]. }
  assert (Hin : forall k, In k (keys l) <-> In k (keys (v_vars ws)) \/ In k (keys (v_vars to))).
  { intros k. pose proof (Fl k) as Fk.
    assert (X : forall m : smap (list F), In k (keys m) <-> find k m <> None).
    { intros m. destruct (find k m) eqn:E.
      - split; [discriminate|]. intros _. apply find_In in E. apply in_map_iff. eexists; split; eauto. reflexivity.
      - apply find_None in E. split; [tauto|congruence]. }
    rewrite !X, Fk. destruct (find k (v_vars to)) as [v|] eqn:Ek; [|split; [auto|intros [?|?]; congruence]].
    split; [intros _; right; discriminate|intros _]. intros C.
    destruct (copy_range_spec A (Z.to_nat n) (match find k (v_vars ws) with Some o => o | None => repeat na (Z.to_nat (s_nb (v_smp ws))) end) v a b)
      as (d & Ed & _); try lia; [| |congruence].
    - destruct (find k (v_vars ws)) eqn:E2; [rewrite (Lw _ _ (find_In _ _ _ E2)); lia|rewrite repeat_length; lia].
    - rewrite (Lt _ _ (find_In _ _ _ Ek)). lia. }
  split; [exact Rw'|]. split; [reflexivity|]. split; [exact Hin|].
  destruct Ow as (kw & Kw & Vw & _). pose proof Vw as (nb & Hs & Bs).
  (* The value after the merge of a variable of [to]. *)
  assert (Val : forall k v q i, find k (v_vars to) = Some v -> M_Time.position (v_smp ws) q = Ok i ->
    value A (mkVdb (v_smp ws) l) k q =
      if (a <=? i) && (i <? a + n) then read A v (i - a + b)
      else read A (match find k (v_vars ws) with Some o => o | None => repeat na (Z.to_nat (s_nb (v_smp ws))) end) i).
  { intros k v q i Hk Pi. set (old := match find k (v_vars ws) with Some o => o | None => repeat na (Z.to_nat (s_nb (v_smp ws))) end) in *.
    assert (Lo : Z.of_nat (length old) = s_nb (v_smp ws)).
    { unfold old. destruct (find k (v_vars ws)) eqn:E2; [apply (Lw _ _ (find_In _ _ _ E2))|rewrite repeat_length; lia]. }
    destruct (copy_range_spec A (Z.to_nat n) old v a b) as (d & Ed & Ld & Rd); try lia.
    { rewrite (Lt _ _ (find_In _ _ _ Hk)). lia. }
    pose proof (Fl k) as Fk. rewrite Hk in Fk. fold old in Fk. rewrite Ed in Fk.
    unfold value. cbn [v_vars v_smp]. rewrite Fk, Pi.
    apply (position_ord (v_smp ws) nb q Hs (position_per _ _ _ Pi)) in Pi. rewrite <- (read_nth A d) by lia. rewrite Rd.
    rewrite Z2Nat.id by lia. reflexivity. }
  assert (Both : forall q i, M_Time.position (v_smp ws) q = Ok i ->
    ((a <=? i) && (i <? a + n) = true -> M_Time.position (v_smp to) q = Ok (i - a + b)) /\
    ((a <=? i) && (i <? a + n) = false -> M_Time.position (v_smp to) q = Throw)).
  { intros q i Pi. pose proof (position_per _ _ _ Pi) as Pq. apply (position_ord (v_smp ws) nb q Hs Pq) in Pi.
    pose proof Ot as (kt & Kt & Vt & _). destruct Vt as (nbt & Hst & Bst).
    (* a common period gives the same periodicity *)
    pose proof (position_per _ _ _ I0) as P0w. pose proof (position_per _ _ _ J0) as P0t.
    assert (nbt = nb) by (eapply sub_det; [exact Hst|]; rewrite <- P0t, P0w; exact Hs). subst nbt.
    assert (Pqt : per q = per (s_start (v_smp to))) by congruence.
    pose proof (position_ord (v_smp to) nb q Hst Pqt) as PT.
    (* the offset *)
    destruct (Pos (s_start (v_smp to)) 0) as [Q1 Q2].
    { apply (position_ord (v_smp to) nb _ Hst eq_refl). destruct Et as [B _]. lia. }
    assert (Off : ord nb (s_start (v_smp to)) + b = ord nb (s_start (v_smp ws)) + a).
    { destruct (overlap_cases _ _ Ew Et) as [[_ X]|(_ & nb' & Nb & [[_ X]|[_ X]])]; try congruence.
      rewrite Eo in X. injection X as -> -> ->. rewrite (sub_nb _ _ Hst) in Nb. injection Nb as <-.
      unfold idx, ord in *. lia. }
    split; intros C.
    - apply PT. apply andb_true_iff in C. rewrite Z.leb_le, Z.ltb_lt in C. split; [lia|]. destruct C. lia.
    - destruct (M_Time.position (v_smp to) q) as [j| |] eqn:Pj; auto.
      + exfalso. pose proof (proj1 (PT j) eq_refl) as Bj. destruct (Pos q j Pj) as [R1 R2].
        destruct (Z_lt_dec j b) as [L1|L1]; [|destruct (Z_lt_dec j (b + n)) as [L2|L2]].
        * rewrite (proj2 (position_ord (v_smp ws) nb q Hs Pq i)) in R2 by lia. specialize (R2 ltac:(lia)). discriminate.
        * rewrite (proj2 (position_ord (v_smp ws) nb q Hs Pq i)) in R1 by lia. injection (R1 ltac:(lia)) as X.
          apply andb_false_iff in C. rewrite Z.leb_gt, Z.ltb_ge in C. lia.
        * rewrite (proj2 (position_ord (v_smp ws) nb q Hs Pq i)) in R2 by lia. specialize (R2 ltac:(lia)). discriminate.
      + exfalso. unfold M_Time.position in Pj. rewrite (difference_spec q _ nb) in Pj by (congruence || (rewrite Pqt; auto)).
        cbn [rbind] in Pj. destruct (_ || _); discriminate. }
  split; [|split].
  - intros k q x [i Pi] Vt. destruct (value_has _ _ _ _ Vt) as (Hk & j & Pj). unfold has in Hk.
    destruct (find_some_in A k _ Hk) as [v Hv]. rewrite (Val k v q i Hv Pi). destruct (Both q i Pi) as [B1 B2].
    destruct ((a <=? i) && (i <? a + n)); [|rewrite (B2 eq_refl) in Pj; discriminate].
    unfold value in Vt. rewrite Hv, (B1 eq_refl) in Vt. rewrite <- Vt.
    pose proof Ot as (kt & Kt & Vs & _). destruct Vs as (nbt & Hst & Bst).
    pose proof (B1 eq_refl) as Pp. apply (position_ord (v_smp to) nbt q Hst (position_per _ _ _ Pp)) in Pp.
    apply read_nth. lia.
  - intros k q Vt Hk. destruct (find_some_in A k _ Hk) as [o Ho].
    destruct (find k (v_vars to)) as [v|] eqn:Hv.
    + destruct (M_Time.position (v_smp ws) q) as [i| |] eqn:Pi.
      * rewrite (Val k v q i Hv Pi). destruct (Both q i Pi) as [B1 B2].
        destruct ((a <=? i) && (i <? a + n)).
        { exfalso. unfold value in Vt. rewrite Hv, (B1 eq_refl) in Vt. apply nth_error_None in Vt.
          pose proof Ot as (kt & Kt & Vs & _). destruct Vs as (nbt & Hst & Bst).
          pose proof (B1 eq_refl) as Pp. apply (position_ord (v_smp to) nbt q Hst (position_per _ _ _ Pp)) in Pp.
          pose proof (Lt _ _ (find_In _ _ _ Hv)). lia. }
        rewrite Ho. unfold value. rewrite Ho, Pi.
        apply (position_ord (v_smp ws) nb q Hs (position_per _ _ _ Pi)) in Pi. apply read_nth. lia.
      * unfold value. cbn [v_smp v_vars]. rewrite Pi. destruct (find k l), (find k (v_vars ws)); reflexivity.
      * unfold value. cbn [v_smp v_vars]. rewrite Pi. destruct (find k l), (find k (v_vars ws)); reflexivity.
    + pose proof (Fl k) as Fk. rewrite Hv in Fk. unfold value. cbn [v_vars v_smp]. now rewrite Fk.
  - intros k q Vt Hk Nk [i Pi]. destruct (find_some_in A k _ Hk) as [v Hv]. rewrite (Val k v q i Hv Pi).
    destruct (Both q i Pi) as [B1 B2].
    assert (Hi : 0 <= i < s_nb (v_smp ws)) by (apply (position_ord (v_smp ws) nb q Hs (position_per _ _ _ Pi)) in Pi; lia).
    destruct ((a <=? i) && (i <? a + n)).
    { exfalso. unfold value in Vt. rewrite Hv, (B1 eq_refl) in Vt. apply nth_error_None in Vt.
      pose proof Ot as (kt & Kt & Vs & _). destruct Vs as (nbt & Hst & Bst).
      pose proof (B1 eq_refl) as Pp. apply (position_ord (v_smp to) nbt q Hst (position_per _ _ _ Pp)) in Pp.
      pose proof (Lt _ _ (find_In _ _ _ Hv)). lia. }
    destruct (find k (v_vars ws)) eqn:E2.
    { exfalso. apply Nk. unfold has. apply find_In in E2. apply in_map_iff. eexists; split; eauto. reflexivity. }
    rewrite read_repeat. destruct (Z.leb_spec 0 i), (Z.ltb_spec i (Z.of_nat (Z.to_nat (s_nb (v_smp ws))))); cbn [andb]; auto; lia.
Qed.
Lemma merge_into_disjoint ws to : regular A ws -> regular A to -> (forall q, ~ (in_smp ws q /\ in_smp to q)) ->
  merge_into A ws to = Throw.
Proof.
  intros (Ow & _) (Ot & _) H. destruct (overlap_throw _ _ (ok_real _ Ow) (ok_real _ Ot)) as [OT NU]. unfold merge_into.
  rewrite (proj2 OT); auto. intros q i j [X Y]. apply (H q). split; [exists i|exists j]; auto.
Qed.
End L.
