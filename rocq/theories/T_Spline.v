(** Theorems on the change of periodicity by cubic splines (WsLtoHStock and WsLtoHFlow with the method cubic splines). *)
From Coq Require Import ZArith Ascii String List Bool Lia QArith Qcanon.
From Verif Require Import M_Base M_Time M_Names M_Lex M_Compile M_Bytes M_Exec M_Exact M_Kdb M_Vars M_Freq S_Time S_Vars S_Freq S_Spline
  L_Time L_Names L_Kdb L_Vars L_Vars2 L_Vars5 L_Freq L_Freq2 L_Freq3 L_Freq4 L_Freq5 L_Freq6 L_Freq7 L_Spline L_Spline2 L_Spline3 L_Spline4 T_Freq.
Import ListNotations.
Open Scope Z_scope.

Section Db.
Context (ty : ltoh_type) (from : vdb exactly) (ws : sample) (m fn : Z).
Hypothesis R : regular A from.
Hypothesis Hf : sub_periods (per (s_start (v_smp from))) fn.
Hypothesis Hw : sub_periods (per (s_start ws)) (m * fn).
Hypothesis Hm : 1 < m.
Hypothesis Ys : year_start (v_smp from).
Hypothesis Fi : fits (per (s_start ws)) (v_smp from).
Notation fs := (v_smp from).
Definition tnb : Z := m * fn * (year (s_end fs) - year (s_start fs) + 1).
Definition out (v : list (F A)) : list (F A) := match ltoh_vector A LTOH_CS ty m (s_nb fs) tnb v with Ok to => to | _ => [] end.
Lemma tnb_le : m * s_nb fs <= tnb.
Proof. pose proof R as (Ok_ & ND & Len). destruct (ltoh_smpl_ok fs ws m fn Ok_ Hf Hw Hm Ys Fi) as (_ & _ & Le & _). exact Le. Qed.
Lemma cs_db : exists to, ltoh A LTOH_CS ty from ws = Ok to /\ regular A to /\ (forall p q k, in_sample A from p -> part m p q k -> in_sample A to q) /\
  forall n v p q k, find n (v_vars from) = Some v -> valid_period p -> part m p q k -> in_sample A to q ->
    value A to n q = Some (at_ (out v) (m * (ord fn p - ord fn (s_start fs)) + (k - 1))).
Proof.
  destruct (ltoh_core A LTOH_CS ty from ws m fn R Hf Hw Hm Ys Fi (fun v u => at_ (out v) u)) as (to & E & Rt & Pt & Kt & Bt & Yr & In_ & Vt).
  - intros v T Lv Le. destruct (cs_total A ty m (s_nb fs) T v ltac:(lia) ltac:(lia) Le) as (to & E & L).
    exists to. split; auto. split; auto. intros u Hu. rewrite at_read by lia. f_equal. unfold out. change tnb with T. now rewrite E.
  - exists to. repeat split; auto; apply Rt.
Qed.
Lemma nth_ord i p : nth_period from i p -> valid_period p /\ per p = per (s_start fs) /\ ord fn p = ord fn (s_start fs) + i /\ 0 <= i < s_nb fs.
Proof.
  intros [Sh I]. pose proof R as (Ok_ & _). apply (between_ord _ fn _ Ok_ Hf) in I. destruct I as (Vp & Ep & B).
  destruct (ok_ord fs _ Ok_ Hf) as (V1 & _ & _ & _ & O).
  destruct (shift_spec (s_start fs) i fn Hf (valid_inv _ _ V1 Hf)) as (p1 & E1 & P1 & B1 & O1). rewrite Sh in E1. injection E1 as <-.
  repeat split; auto; lia.
Qed.
End Db.

(** * C71: stocks *)
(** In exact arithmetic, the values of a stock known from the first period of the file on are those of the natural cubic spline
    through the values: on the first run of numbers, except the last number of the file. *)
Theorem C71_spline_stock_partial : forall asked (from ws : vdb exactly) m fn p0 q0 k0, asked <> [] -> regular exactly from -> regular exactly ws ->
  sub_periods (per (s_start (v_smp from))) fn -> sub_periods (per (s_start (v_smp ws))) (m * fn) -> 1 < m ->
  year_start (v_smp from) -> fits (per (s_start (v_smp ws))) (v_smp from) ->
  in_sample exactly from p0 -> part m p0 q0 k0 -> in_sample exactly ws q0 ->
  exists ws', ws_ltoh exactly LTOH_CS LTOH_STOCK asked (Some from) (Some ws) = Ok ws' /\ regular exactly ws' /\ v_smp ws' = v_smp ws /\
    forall n N y pe ye, 0 <= N ->
      (forall i, 0 <= i <= N -> exists p, nth_period from i p /\ value exactly from n p = Some (y i) /\ q_num (y i) = true) ->
      nth_period from (N + 1) pe -> value exactly from n pe = Some ye -> pe = s_end (v_smp from) \/ q_num ye = false ->
      (exists c, natural_spline y N c) /\
      forall c, natural_spline y N c ->
        forall i p q k, 1 <= i <= N -> nth_period from i p -> part m p q k -> in_sample exactly ws q ->
          value exactly ws' n q = Some (if (k <? m) || (i <? N) || q_num ye then eval (c (i - 1)) (q_ofZ k / q_ofZ m) else q_na).
Proof.
  intros asked from ws m fn p0 q0 k0 Na Rf Rw Hf Hw Hm Ys Fi I0 P0 Iw.
  destruct (cs_db LTOH_STOCK from (v_smp ws) m fn Rf Hf Hw Hm Ys Fi) as (to & E & Rt & In_ & V).
  destruct (command_ok exactly (ltoh exactly LTOH_CS LTOH_STOCK) asked from ws to q0 Na E Rw Rt Iw (In_ _ _ _ I0 P0)) as (ws' & Ec & Rw' & Sw & Hh & H1 & _).
  exists ws'. split; [exact Ec|]. split; [exact Rw'|]. split; [exact Sw|].
  intros n N y pe ye HN Vy Pe Ve De. pose proof Rf as (Of & ND & Len).
  destruct (ok_ord (v_smp from) _ Of Hf) as (V1 & V2 & PE & BE & OE).
  destruct (find_some_in exactly n _ (proj1 (value_has _ _ _ _ _ Ve))) as [v Hv]. pose proof (Len _ _ (find_In _ _ _ Hv)) as Lv.
  assert (Src : forall i p x, nth_period from i p -> value exactly from n p = Some x -> at_ v i = x /\ isnum exactly v i = q_num x).
  { intros i p x Pi Vx. destruct (nth_ord from fn Rf Hf i p Pi) as (Vp & Ep & Op & Bi).
    rewrite (value_read exactly _ fn n v) in Vx by auto. replace (ord fn p - ord fn (s_start (v_smp from))) with i in Vx by lia.
    unfold L_Spline.at_, isnum. rewrite Vx. split; reflexivity. }
  destruct (nth_ord from fn Rf Hf _ pe Pe) as (Vpe & Epe & Ope & Bpe).
  assert (Nn : forall i, 0 <= i <= N -> isnum exactly v i = true).
  { intros i Hi. destruct (Vy i Hi) as (p & Pi & Vi & Ni). destruct (Src i p _ Pi Vi) as [_ ->]. exact Ni. }
  assert (Ns : N + 1 < s_nb (v_smp from) - 1 -> isnum exactly v (N + 1) = false).
  { intros C. destruct De as [De|De]; [|destruct (Src _ _ _ Pe Ve) as [_ ->]; exact De].
    exfalso. rewrite De in Ope. lia. }
  assert (Yv : forall i, 0 <= i <= N -> at_ v i = y i).
  { intros i Hi. destruct (Vy i Hi) as (p & Pi & Vi & Ni). apply (Src i p _ Pi Vi). }
  destruct (stock_vector exactly m (s_nb (v_smp from)) (tnb from m fn) v N ltac:(lia) ltac:(lia)) as (to' & y2 & q & w & Eo & Lo & Q0 & W0 & Rc & Yd & Yr & Vals); try lia; auto.
  { pose proof (tnb_le from (v_smp ws) m fn Rf Hf Hw Hm Ys Fi). lia. }
  assert (Rq : forall k, 1 <= k < N -> q k = next_q exactly (q (k - 1))) by (intros k Hk; apply Rc; auto).
  assert (Rw0 : forall k, 1 <= k < N -> w k = next_u exactly (dd y k) (q (k - 1)) (w (k - 1))).
  { intros k Hk. destruct (Rc k Hk) as [_ ->]. f_equal. unfold diff, dd. rewrite !Yv by lia. reflexivity. }
  assert (Sp : natural_spline y N (piece y (at_ y2))) by (apply (piece_spline y q w (at_ y2) N); auto).
  split; [eauto|]. intros c Sc i p qq k Hi Pi Pq Iq. rewrite (spline_unique y N c _ Sc Sp (i - 1)) by lia. destruct (nth_ord from fn Rf Hf i p Pi) as (Vp & Ep & Op & Bi).
  assert (Ip : in_sample exactly from p) by (destruct Pi; auto).
  pose proof Pq as (np & _ & _ & _ & K & _).
  apply H1; auto. rewrite (V n v p qq k Hv Vp Pq (In_ _ _ _ Ip Pq)). f_equal. unfold out. rewrite Eo.
  replace (ord fn p - ord fn (s_start (v_smp from))) with i by lia. rewrite Vals by nia.
  destruct (Z.leb_spec m (m * i + (k - 1))); [|nia].
  destruct (part_div m i k) as [-> ->]; [lia|lia|]. replace (k - 1 + 1) with k by lia. unfold cs_at.
  destruct (Z.ltb_spec k m) as [C|C].
  - cbn [orb]. rewrite Z.div_small by lia. replace (i - 1 + 0) with (i - 1) by lia. replace (i - 1 + 1) with i by lia. rewrite !Nn by lia. cbn [andb].
    apply (value_piece y q w (at_ y2) N); auto; try lia; apply Yv; lia.
  - assert (k = m) by lia. subst k. rewrite Z.div_same by lia. replace (i - 1 + 1) with i by lia. rewrite Nn by lia. cbn [andb orb].
    replace (q_ofZ m / q_ofZ m)%Qc with 1%Qc by (field; apply qz_ne; lia).
    destruct (Z.ltb_spec i N) as [C2|C2].
    + rewrite Nn by lia. cbn [orb]. apply (value_end y q w (at_ y2) N); auto; try lia. apply Yv. lia.
    + assert (i = N) by lia. subst i. cbn [orb]. destruct (Src _ _ _ Pe Ve) as [_ Ne]. rewrite Ne.
      destruct (q_num ye); [|reflexivity]. apply (value_end y q w (at_ y2) N); auto; try lia. apply Yv. lia.
Qed.
Print Assumptions C71_spline_stock_partial.

(** Quarterly values of the years 2000 to 2005, of which 2005 is missing; with the same values until 2004, none missing. *)
Definition empty_qtrs : vdb exactly := mkVdb (A := exactly) (smpl (pd 2000 1 "Q") (pd 2005 4 "Q")) [].
Definition got (r : res (vdb exactly)) (q : period) : option Q :=
  match r with Ok d => option_map (fun x : Qc => this x) (value exactly d (S2L "X") q) | _ => None end.
Definition pulse := mkVdb (A := exactly) (smpl (pd 2000 1 "Y") (pd 2005 1 "Y")) [(S2L "X", qv [Some 0; Some 0; Some 224; Some 0; Some 0; None])].
Example C71_ex : regular exactly pulse /\ regular exactly empty_qtrs /\ year_start (v_smp pulse) /\ fits "Q"%char (v_smp pulse) /\
  (forall i, 0 <= i <= 4 -> exists p, nth_period pulse i p /\ value exactly pulse (S2L "X") p = Some (nth (Z.to_nat i) (qv [Some 0; Some 0; Some 224; Some 0; Some 0]) q_na)) /\
  nth_period pulse 5 (pd 2005 1 "Y") /\
  map (got (ws_ltoh exactly LTOH_CS LTOH_STOCK [S2L "X"] (Some pulse) (Some empty_qtrs)))
    [pd 2000 4 "Q"; pd 2001 2 "Q"; pd 2001 4 "Q"; pd 2002 2 "Q"; pd 2002 4 "Q"; pd 2003 2 "Q"; pd 2004 4 "Q"; pd 2005 1 "Q"]
  = map (fun x : Qc => Some (this x)) [q_na; q_ofZ (-36); q_ofZ 0; q_ofZ 136; q_ofZ 224; q_ofZ 136; q_na; q_na].
Proof.
  split; [is_regular 1|]. split; [is_regular 4|]. split; [reflexivity|]. split; [intros nb H; inversion H; cbn; lia|].
  split; [|split; [|vm_compute; reflexivity]].
  - intros i Hi. exists (pd (2000 + i) 1 "Y").
    assert (C : i = 0 \/ i = 1 \/ i = 2 \/ i = 3 \/ i = 4) by lia.
    destruct C as [->|[->|[->|[->| ->]]]]; (split; [split; [reflexivity|is_between 1]|reflexivity]).
  - split; [reflexivity|is_between 1].
Qed.
(** The last number of the file is lost: the stock is known on all the years, and nothing is computed on the last one. *)
Definition known := mkVdb (A := exactly) (smpl (pd 2000 1 "Y") (pd 2004 1 "Y")) [(S2L "X", qv [Some 0; Some 0; Some 224; Some 0; Some 0])].
Theorem C71_last_refuted : exists (from ws : vdb exactly) p q x,
  regular exactly from /\ regular exactly ws /\ sub_periods (per (s_start (v_smp from))) 1 /\ sub_periods (per (s_start (v_smp ws))) (4 * 1) /\
  year_start (v_smp from) /\ fits (per (s_start (v_smp ws))) (v_smp from) /\ p = s_end (v_smp from) /\ part 4 p q 4 /\ in_sample exactly ws q /\
  (forall p', in_sample exactly from p' -> exists x', value exactly from (S2L "X") p' = Some x' /\ q_num x' = true) /\
  value exactly from (S2L "X") p = Some x /\
  exists ws', ws_ltoh exactly LTOH_CS LTOH_STOCK [S2L "X"] (Some from) (Some ws) = Ok ws' /\ value exactly ws' (S2L "X") q = Some q_na.
Proof.
  exists known, empty_qtrs, (pd 2004 1 "Y"), (pd 2004 4 "Q"), (q_ofZ 0).
  split; [is_regular 1|]. split; [is_regular 4|]. split; [constructor|]. split; [constructor|]. split; [reflexivity|]. split; [intros nb H; inversion H; cbn; lia|].
  split; [reflexivity|].
  split; [exists 1; cbn; repeat split; try constructor; lia|]. split; [is_between 4|]. split; [|split; [reflexivity|]].
  - intros p' Ip. assert (Of : sample_ok (v_smp known)) by (assert (X : regular exactly known) by is_regular 1; apply X).
    apply (between_ord _ 1 _ Of ltac:(constructor)) in Ip. destruct Ip as (Vp & Ep & B). cbn in Ep. destruct p' as [yy ss cc]. cbn in Ep. subst cc.
    assert (ss = 1). { destruct Vp as (nb & Hn & Bn). inversion Hn; subst. cbn in Bn. lia. } subst ss. change (ord 1 (s_start (v_smp known))) with 2001 in B. change (ord 1 (s_end (v_smp known))) with 2005 in B. unfold ord in B. cbn [year M_Time.step] in B.
    assert (C : yy = 2000 \/ yy = 2001 \/ yy = 2002 \/ yy = 2003 \/ yy = 2004) by lia.
    destruct C as [->|[->|[->|[->| ->]]]]; (eexists; split; [reflexivity|reflexivity]).
  - apply ex_ok. vm_compute. reflexivity.
Qed.
Print Assumptions C71_last_refuted.
(** After a missing value, the curve is not a spline through the values that follow: the same values do not give the same curve. *)
Definition gap := mkVdb (A := exactly) (smpl (pd 1999 1 "Y") (pd 2005 1 "Y")) [(S2L "X", qv [Some 7; None; Some 0; Some 224; Some 0; Some 0; None])].
Definition no_gap := mkVdb (A := exactly) (smpl (pd 2001 1 "Y") (pd 2005 1 "Y")) [(S2L "X", qv [Some 0; Some 224; Some 0; Some 0; None])].
Theorem C71_gap_refuted : exists (from from' ws : vdb exactly) q,
  regular exactly from /\ regular exactly from' /\ regular exactly ws /\ in_sample exactly ws q /\
  (forall p x, in_sample exactly from p -> (value exactly from (S2L "X") p = Some x <-> value exactly from' (S2L "X") p = Some x)) /\
  exists ws1 ws2, ws_ltoh exactly LTOH_CS LTOH_STOCK [S2L "X"] (Some from) (Some ws) = Ok ws1 /\
    ws_ltoh exactly LTOH_CS LTOH_STOCK [S2L "X"] (Some from') (Some ws) = Ok ws2 /\
    value exactly ws1 (S2L "X") q <> value exactly ws2 (S2L "X") q.
Proof.
  exists no_gap, gap, empty_qtrs, (pd 2002 2 "Q").
  split; [is_regular 1|]. split; [is_regular 1|]. split; [is_regular 4|]. split; [is_between 4|]. split.
  - intros p x Ip. assert (Of : sample_ok (v_smp no_gap)) by (assert (X : regular exactly no_gap) by is_regular 1; apply X).
    apply (between_ord _ 1 _ Of ltac:(constructor)) in Ip. destruct Ip as (Vp & Ep & B). cbn in Ep. destruct p as [yy ss cc]. cbn in Ep. subst cc.
    assert (ss = 1). { destruct Vp as (nb & Hn & Bn). inversion Hn; subst. cbn in Bn. lia. } subst ss. change (ord 1 (s_start (v_smp no_gap))) with 2002 in B. change (ord 1 (s_end (v_smp no_gap))) with 2006 in B. unfold ord in B. cbn [year M_Time.step] in B.
    assert (C : yy = 2001 \/ yy = 2002 \/ yy = 2003 \/ yy = 2004 \/ yy = 2005) by lia.
    destruct C as [->|[->|[->|[->| ->]]]]; reflexivity.
  - assert (G : match got (ws_ltoh exactly LTOH_CS LTOH_STOCK [S2L "X"] (Some no_gap) (Some empty_qtrs)) (pd 2002 2 "Q"),
        got (ws_ltoh exactly LTOH_CS LTOH_STOCK [S2L "X"] (Some gap) (Some empty_qtrs)) (pd 2002 2 "Q") with
      | Some a, Some b => Qeq_bool a b = false | _, _ => False end) by (vm_compute; reflexivity).
    revert G. generalize (ws_ltoh exactly LTOH_CS LTOH_STOCK [S2L "X"] (Some no_gap) (Some empty_qtrs)),
      (ws_ltoh exactly LTOH_CS LTOH_STOCK [S2L "X"] (Some gap) (Some empty_qtrs)).
    intros [ws1| |] [ws2| |] G; try contradiction; try (destruct (got (Ok ws1) (pd 2002 2 "Q")); contradiction).
    exists ws1, ws2. split; auto. split; auto. intros H. unfold got in G. rewrite H in G.
    destruct (value exactly ws2 (S2L "X") (pd 2002 2 "Q")) as [x|]; [|contradiction]. cbn [option_map] in G.
    assert (X : Qeq_bool (this x) (this x) = true) by (apply Qeq_bool_iff; reflexivity). congruence.
Qed.
Print Assumptions C71_gap_refuted.

(** * C72: flows *)
Lemma zrange_length : forall n j, length (zrange j n) = n.
Proof. induction n as [|n IH]; intros j; cbn; auto. Qed.
Lemma nth_zrange (h : Z -> Qc) d : forall n j k, (k < n)%nat -> nth k (map h (zrange j n)) d = h (j + Z.of_nat k).
Proof.
  induction n as [|n IH]; intros j k Hk; [lia|]. destruct k; cbn [zrange map nth]; [f_equal; lia|]. rewrite IH by lia. f_equal. lia.
Qed.
Definition bounded (d : vdb exactly) (n : str) : Prop :=
  forall p x, value exactly d n p = Some x -> q_num x = true -> (q_ofZ (- 10 ^ 30) <= x <= q_ofZ (10 ^ 30))%Qc.
(** In exact arithmetic, the values computed for a period add up to its value when the values before and after are numbers too,
    the one after not being the last of the file. *)
Theorem C72_spline_flow_partial : forall asked (from ws : vdb exactly) m fn p0 q0 k0, asked <> [] -> regular exactly from -> regular exactly ws ->
  sub_periods (per (s_start (v_smp from))) fn -> sub_periods (per (s_start (v_smp ws))) (m * fn) -> 1 < m ->
  year_start (v_smp from) -> fits (per (s_start (v_smp ws))) (v_smp from) ->
  in_sample exactly from p0 -> part m p0 q0 k0 -> in_sample exactly ws q0 ->
  exists ws', ws_ltoh exactly LTOH_CS LTOH_FLOW asked (Some from) (Some ws) = Ok ws' /\ regular exactly ws' /\ v_smp ws' = v_smp ws /\
    forall n i p1 p p2 x1 x x2 xs, bounded from n -> nth_period from (i - 1) p1 -> nth_period from i p -> nth_period from (i + 1) p2 ->
      p2 <> s_end (v_smp from) ->
      value exactly from n p1 = Some x1 -> value exactly from n p = Some x -> value exactly from n p2 = Some x2 ->
      q_num x1 = true -> q_num x = true -> q_num x2 = true ->
      values_in exactly m ws' n p xs -> total exactly xs = x.
Proof.
  intros asked from ws m fn p0 q0 k0 Na Rf Rw Hf Hw Hm Ys Fi I0 P0 Iw.
  destruct (cs_db LTOH_FLOW from (v_smp ws) m fn Rf Hf Hw Hm Ys Fi) as (to & E & Rt & In_ & V).
  destruct (command_ok exactly (ltoh exactly LTOH_CS LTOH_FLOW) asked from ws to q0 Na E Rw Rt Iw (In_ _ _ _ I0 P0)) as (ws' & Ec & Rw' & Sw & Hh & H1 & _).
  exists ws'. split; [exact Ec|]. split; [exact Rw'|]. split; [exact Sw|].
  intros n i p1 p p2 x1 x x2 xs Bn Pi1 Pi Pi2 Ne Vx1 Vx Vx2 N1 N2 N3 (Lx & Vp & Vxs).
  pose proof Rf as (Of & ND & Len). destruct (ok_ord (v_smp from) _ Of Hf) as (V1 & V2 & PE & BE & OE).
  destruct (find_some_in exactly n _ (proj1 (value_has _ _ _ _ _ Vx))) as [v Hv]. pose proof (Len _ _ (find_In _ _ _ Hv)) as Lv.
  assert (Src : forall i p x, nth_period from i p -> value exactly from n p = Some x -> at_ v i = x /\ isnum exactly v i = q_num x).
  { clear i p x Pi1 Pi Pi2 Ne Vx1 Vx Vx2 N1 N2 N3 Lx Vp Vxs. intros i p x Pi Vx. destruct (nth_ord from fn Rf Hf i p Pi) as (Vp & Ep & Op & Bi).
    rewrite (value_read exactly _ fn n v) in Vx by auto. replace (ord fn p - ord fn (s_start (v_smp from))) with i in Vx by lia.
    unfold L_Spline.at_, isnum. rewrite Vx. split; reflexivity. }
  destruct (Src _ _ _ Pi1 Vx1) as [_ I1], (Src _ _ _ Pi Vx) as [Ax I2], (Src _ _ _ Pi2 Vx2) as [_ I3].
  destruct (nth_ord from fn Rf Hf _ p2 Pi2) as (Vp2 & Ep2 & Op2 & Bp2). destruct (nth_ord from fn Rf Hf _ p Pi) as (_ & Ep & Op & Bp).
  assert (Ip : in_sample exactly from p) by (destruct Pi; auto).
  assert (Hm1 : m <= 1000).
  { pose proof (sub_pos _ _ Hf). assert (m * fn <= 365) by (inversion Hw; lia). nia. }
  assert (Le := tnb_le from (v_smp ws) m fn Rf Hf Hw Hm Ys Fi).
  destruct (flow_vector v (s_nb (v_smp from)) m (inject_Z (10 ^ 30)) ltac:(lia) ltac:(lia)) with (tnb := tnb from m fn) as (to' & Eo & Lo & Sum).
  - discriminate.
  - apply Qle_refl.
  - intros f Nf. destruct (isnum_at _ _ _ Nf) as [Bf Nf'].
    destruct (shift_spec (s_start (v_smp from)) f fn Hf (valid_inv _ _ V1 Hf)) as (pf & Ef & Pf & Bpf & Opf).
    assert (Vpf : valid_period pf) by (exists fn; rewrite Pf; auto).
    assert (Nth : nth_period from f pf).
    { split; auto. apply (between_ord _ fn _ Of Hf). split; auto. split; [congruence|lia]. }
    assert (Vf : value exactly from n pf = Some (at_ v f)).
    { rewrite (value_read exactly _ fn n v) by (auto; congruence). replace (ord fn pf - ord fn (s_start (v_smp from))) with f by lia. apply at_read. lia. }
    destruct (Bn pf _ Vf Nf') as [L1 L2]. unfold Qcle in L1, L2. rewrite qz_this in L1, L2. split; [exact L1|exact L2].
  - lia.
  - assert (Xs : xs = block to' m i).
    { apply (nth_ext _ _ q_na q_na).
      - unfold block. rewrite map_length, zrange_length, <- Lx, Nat2Z.id. reflexivity.
      - intros k Hk. destruct (nth_error xs k) as [xk|] eqn:Ek; [|apply nth_error_None in Ek; exfalso; apply (Nat.lt_irrefl k); eapply Nat.lt_le_trans; [exact Hk|exact Ek]].
        etransitivity; [exact (nth_error_nth xs k q_na Ek)|]. destruct (Vxs k xk Ek) as (q & Pq & Vq).
        assert (Iq : in_sample exactly ws q).
        { assert (Rq := Rw'). destruct Rq as (Ok' & _). unfold in_sample. rewrite <- Sw. apply pos_in_sample with (d := ws'); auto.
          - exact (part_valid _ _ _ _ Vp Pq).
          - apply (value_has _ _ _ _ _ Vq). }
        rewrite (H1 n q _ Iq (V n v p q _ Hv Vp Pq (In_ _ _ _ Ip Pq))) in Vq. injection Vq as <-.
        unfold out. rewrite Eo. unfold block. assert (Hk' : (k < Z.to_nat m)%nat) by (rewrite <- Lx, Nat2Z.id; exact Hk). rewrite nth_zrange by exact Hk'. f_equal. lia. }
    rewrite Xs, Sum; auto; try congruence.
    destruct (Z.eq_dec (i + 1) (s_nb (v_smp from) - 1)) as [C|]; [|lia]. exfalso. apply Ne.
    apply (valid_inj p2 (s_end (v_smp from)) fn); auto; [rewrite Ep2; auto|congruence|lia].
Qed.
Print Assumptions C72_spline_flow_partial.
Definition flows := mkVdb (A := exactly) (smpl (pd 2000 1 "Y") (pd 2005 1 "Y")) [(S2L "X", qv [Some 4; Some 8; Some 24; Some 12; Some 16; Some 20])].
Definition totals (r : res (vdb exactly)) (y : Z) : option Q :=
  match r with
  | Ok d => match value exactly d (S2L "X") (pd y 1 "Q"), value exactly d (S2L "X") (pd y 2 "Q"), value exactly d (S2L "X") (pd y 3 "Q"), value exactly d (S2L "X") (pd y 4 "Q") with
            | Some a, Some b, Some c, Some e => Some (this (total exactly [a; b; c; e])) | _, _, _, _ => None end
  | _ => None
  end.
Lemma in_sheet d n y1 v p x : v_vars d = [(n, v)] -> v_smp d = smpl (pd y1 1 "Y") (pd (y1 + Z.of_nat (length v) - 1) 1 "Y") -> value exactly d n p = Some x -> In x v.
Proof.
  intros E _ H. unfold value in H. rewrite E in H. cbn [find] in H.
  assert (X : str_eqb n n = true) by (now apply str_eqb_iff). rewrite X in H.
  destruct (M_Time.position (v_smp d) p); [|discriminate|discriminate]. eapply nth_error_In; eauto.
Qed.
Example C72_ex : regular exactly flows /\ regular exactly empty_qtrs /\ year_start (v_smp flows) /\ fits "Q"%char (v_smp flows) /\ bounded flows (S2L "X") /\
  nth_period flows 1 (pd 2001 1 "Y") /\ nth_period flows 2 (pd 2002 1 "Y") /\ nth_period flows 3 (pd 2003 1 "Y") /\ pd 2003 1 "Y" <> s_end (v_smp flows) /\
  map (totals (ws_ltoh exactly LTOH_CS LTOH_FLOW [S2L "X"] (Some flows) (Some empty_qtrs))) [2001; 2002; 2003] = [Some 8%Q; Some 24%Q; Some 12%Q] /\
  map (got (ws_ltoh exactly LTOH_CS LTOH_FLOW [S2L "X"] (Some flows) (Some empty_qtrs))) [pd 2002 1 "Q"; pd 2002 2 "Q"; pd 2002 3 "Q"; pd 2002 4 "Q"]
   = [Some (3069 # 512)%Q; Some (1663 # 256)%Q; Some (3167 # 512)%Q; Some (1363 # 256)%Q].
Proof.
  split; [is_regular 1|]. split; [is_regular 4|]. split; [reflexivity|]. split; [intros nb H; inversion H; cbn; lia|]. split.
  { intros p x Vx _. apply (in_sheet flows _ 2000 (qv [Some 4; Some 8; Some 24; Some 12; Some 16; Some 20])) in Vx; [|reflexivity|reflexivity].
    cbn [qv map In] in Vx. repeat (destruct Vx as [<-|Vx]; [split; vm_compute; discriminate|]). contradiction. }
  split; [split; [reflexivity|is_between 1]|]. split; [split; [reflexivity|is_between 1]|]. split; [split; [reflexivity|is_between 1]|].
  split; [discriminate|]. split; [vm_compute; reflexivity|]. vm_compute. reflexivity.
Qed.
Lemma some_this : forall u v : Q, Some u = Some v -> (u == v)%Q.
Proof. intros u v H. injection H as ->. reflexivity. Qed.
(** Not in the first year, of which the first quarter is missing and the others are not adjusted. *)
Theorem C72_first_refuted : exists (from ws : vdb exactly) p xs x,
  regular exactly from /\ regular exactly ws /\ sub_periods (per (s_start (v_smp from))) 1 /\ sub_periods (per (s_start (v_smp ws))) (4 * 1) /\
  year_start (v_smp from) /\ fits (per (s_start (v_smp ws))) (v_smp from) /\ bounded from (S2L "X") /\ p = s_start (v_smp from) /\
  value exactly from (S2L "X") p = Some x /\ q_num x = true /\
  exists ws', ws_ltoh exactly LTOH_CS LTOH_FLOW [S2L "X"] (Some from) (Some ws) = Ok ws' /\ values_in exactly 4 ws' (S2L "X") p xs /\ total exactly xs = q_na.
Proof.
  assert (L : forall r, totals r 2000 = Some (this q_na) ->
    exists xs ws', r = Ok ws' /\ values_in exactly 4 ws' (S2L "X") (pd 2000 1 "Y") xs /\ total exactly xs = q_na).
  { intros [ws'| |] G; try discriminate. unfold totals in G.
    destruct (value exactly ws' (S2L "X") (pd 2000 1 "Q")) as [a|] eqn:Ea; [|discriminate]. destruct (value exactly ws' (S2L "X") (pd 2000 2 "Q")) as [b|] eqn:Eb; [|discriminate].
    destruct (value exactly ws' (S2L "X") (pd 2000 3 "Q")) as [c|] eqn:Ec; [|discriminate]. destruct (value exactly ws' (S2L "X") (pd 2000 4 "Q")) as [e|] eqn:Ee; [|discriminate].
    exists [a; b; c; e], ws'. split; [reflexivity|]. split.
    - split; [reflexivity|]. split; [is_valid|]. intros k x Hk. exists (pd 2000 (Z.of_nat k + 1) "Q").
      assert (K : (k < 4)%nat) by (apply (nth_error_Some [a; b; c; e] k); congruence).
      split; [exists 1; cbn; repeat split; try constructor; lia|].
      destruct k as [|[|[|[|k]]]]; cbn in Hk; try lia; injection Hk as <-; assumption.
    - apply Qc_is_canon. exact (some_this _ _ G). }
  destruct (L (ws_ltoh exactly LTOH_CS LTOH_FLOW [S2L "X"] (Some flows) (Some empty_qtrs)) ltac:(vm_compute; reflexivity)) as (xs & ws' & Er & W & T).
  exists flows, empty_qtrs, (pd 2000 1 "Y"), xs, (q_ofZ 4).
  split; [is_regular 1|]. split; [is_regular 4|]. split; [constructor|]. split; [constructor|]. split; [reflexivity|]. split; [intros nb H; inversion H; cbn; lia|].
  split; [apply C72_ex|]. split; [reflexivity|]. split; [reflexivity|]. split; [reflexivity|]. exists ws'. split; [exact Er|]. split; [exact W|exact T].
Qed.
Print Assumptions C72_first_refuted.
(** Nor in the last two years, which are missing. *)
Theorem C72_last_refuted : exists (from ws : vdb exactly) p p' q q' x x',
  regular exactly from /\ regular exactly ws /\ sub_periods (per (s_start (v_smp from))) 1 /\ sub_periods (per (s_start (v_smp ws))) (4 * 1) /\
  year_start (v_smp from) /\ fits (per (s_start (v_smp ws))) (v_smp from) /\ bounded from (S2L "X") /\ follows p p' /\ p' = s_end (v_smp from) /\
  value exactly from (S2L "X") p = Some x /\ q_num x = true /\ value exactly from (S2L "X") p' = Some x' /\ q_num x' = true /\
  part 4 p q 1 /\ part 4 p' q' 1 /\ in_sample exactly ws q /\ in_sample exactly ws q' /\
  exists ws', ws_ltoh exactly LTOH_CS LTOH_FLOW [S2L "X"] (Some from) (Some ws) = Ok ws' /\
    value exactly ws' (S2L "X") q = Some q_na /\ value exactly ws' (S2L "X") q' = Some q_na.
Proof.
  exists flows, empty_qtrs, (pd 2004 1 "Y"), (pd 2005 1 "Y"), (pd 2004 1 "Q"), (pd 2005 1 "Q"), (q_ofZ 16), (q_ofZ 20).
  split; [is_regular 1|]. split; [is_regular 4|]. split; [constructor|]. split; [constructor|]. split; [reflexivity|]. split; [intros nb H; inversion H; cbn; lia|].
  split; [apply C72_ex|]. split. { apply (follows_ord (pd 2004 1 "Y") (pd 2005 1 "Y") 1); [is_valid|constructor|split; [is_valid|split; reflexivity]]. }
  split; [reflexivity|]. split; [reflexivity|]. split; [reflexivity|]. split; [reflexivity|]. split; [reflexivity|].
  split; [exists 1; cbn; repeat split; try constructor; lia|]. split; [exists 1; cbn; repeat split; try constructor; lia|].
  split; [is_between 4|]. split; [is_between 4|].
  assert (L : forall r, map (got r) [pd 2004 1 "Q"; pd 2005 1 "Q"] = [Some (this q_na); Some (this q_na)] ->
    exists ws', r = Ok ws' /\ value exactly ws' (S2L "X") (pd 2004 1 "Q") = Some q_na /\ value exactly ws' (S2L "X") (pd 2005 1 "Q") = Some q_na).
  { intros [ws'| |] G; try discriminate. exists ws'. split; auto. cbn [map got] in G.
    destruct (value exactly ws' (S2L "X") (pd 2004 1 "Q")) as [a|]; [|discriminate]. destruct (value exactly ws' (S2L "X") (pd 2005 1 "Q")) as [b|]; [|discriminate].
    cbn [option_map] in G. split; f_equal; apply Qc_is_canon, some_this.
    - exact (f_equal (hd None) G).
    - exact (f_equal (fun l => hd None (tl l)) G). }
  apply L. vm_compute. reflexivity.
Qed.
Print Assumptions C72_last_refuted.
