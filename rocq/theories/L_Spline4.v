(** The cubic spline of the variables: the runs of a flow, and the values in terms of periods. *)
From Coq Require Import ZArith Ascii String List Bool Lia QArith Qcanon.
From Verif Require Import M_Base M_Time M_Names M_Lex M_Compile M_Bytes M_Exec M_Exact M_Kdb M_Vars M_Freq S_Time S_Vars S_Freq S_Spline
  L_Time L_Names L_Kdb L_Vars L_Vars2 L_Vars5 L_Freq L_Freq2 L_Freq3 L_Freq4 L_Freq5 L_Freq6 L_Spline L_Spline2 L_Spline3.
Import ListNotations.
Open Scope Z_scope.
Local Arguments Z.add : simpl never.
Local Arguments Z.sub : simpl never.
Local Arguments Z.mul : simpl never.

(** The conversion of a flow never fails. *)
Lemma advance_any A0 (from : list (F A0)) nb beg : nb = Z.of_nat (length from) -> 0 <= beg ->
  exists b, advance A0 (Z.to_nat nb) false from beg nb = Ok b /\ beg <= b /\ (forall k, beg <= k < b -> isnum A0 from k = false) /\
    (b < nb -> isnum A0 from b = true).
Proof.
  intros En H0. destruct (Z.leb_spec beg nb) as [Hb|Hb].
  - destruct (advance_spec A0 from nb false En (Z.to_nat nb) beg ltac:(lia) ltac:(lia)) as (b & -> & Bb & N & S). exists b. repeat split; auto; lia.
  - exists beg. split; [|repeat split; lia]. destruct (Z.to_nat nb); cbn [advance]; auto. destruct (Z.ltb_spec beg nb); [lia|auto].
Qed.
Lemma flow_total A0 sh nb : 0 < sh -> forall fuel (from y2 to : list (F A0)) beg, nb = Z.of_nat (length from) -> 0 <= beg -> (length from <= length y2)%nat ->
  nb - beg < Z.of_nat fuel /\ 0 < Z.of_nat fuel -> nb * sh <= Z.of_nat (length to) ->
  exists to', cs_runs A0 fuel LTOH_FLOW from y2 nb sh beg to = Ok to' /\ length to' = length to /\
    forall u, u < beg * sh -> L_Spline.at_ A0 to' u = L_Spline.at_ A0 to u.
Proof.
  intros Hs. induction fuel as [|fuel IH]; intros from y2 to beg En H0 L2 Hk Hl; cbn [cs_runs]; [lia|].
  destruct (advance_any A0 from nb beg En H0) as (b & -> & Bb & _). cbn [rbind]. destruct (Z.leb_spec nb b) as [Hnb|Hnb].
  { exists to. split; auto. }
  destruct (divide_run_spec A0 sh nb (Z.to_nat nb) from b En ltac:(lia) ltac:(lia)) as (from' & e & -> & Lf & _). cbn [rbind].
  destruct (y2cs_spec A0 from' b (nb - b) y2) as (dim & y2' & q & w & -> & L2' & Hd & Dd & _); [lia|lia|lia|lia|]. cbn [rbind].
  destruct (flow_blocks_spec A0 from' y2' sh Hs ltac:(lia) (Z.to_nat dim) b (b * sh) to) as (to1 & -> & L1 & R1); [lia|lia|nia|nia|]. cbn [rbind].
  destruct (IH from' y2' to1 (b + (dim + 1))) as (to2 & -> & L3 & R3); [lia|lia|lia|lia|lia|]. exists to2. split; auto. split; [congruence|].
  intros u Hu. rewrite R3, R1 by nia. destruct (Z.leb_spec (b * sh) u); [nia|reflexivity].
Qed.
Lemma cs_total A0 ty sh nb tnb (from : list (F A0)) : 0 < sh -> nb = Z.of_nat (length from) -> nb * sh <= tnb ->
  exists to, ltoh_vector A0 LTOH_CS ty sh nb tnb from = Ok to /\ Z.of_nat (length to) = tnb.
Proof.
  intros Hs En Ht. destruct ty; [now apply stock_total|]. unfold ltoh_vector. destruct (Z.ltb_spec tnb 0); [nia|].
  destruct (flow_total A0 sh nb Hs (S (Z.to_nat nb)) from (repeat (ofZ A0 0) (Z.to_nat nb)) (repeat (na A0) (Z.to_nat tnb)) 0) as (to & E & L & _);
    rewrite ?repeat_length in *; try lia. exists to. split; auto. lia.
Qed.

(** * The sums of a flow *)
Definition block (to : list (F A)) (sh f : Z) : list Qc := map (fun j => at_ to (f * sh + j)) (zrange 0 (Z.to_nat sh)).
Lemma zrange_in j : forall n i, In j (zrange i n) -> i <= j < i + Z.of_nat n.
Proof. induction n as [|n IH]; intros i Hi; cbn in Hi; [tauto|]. destruct Hi as [->|Hi]; [lia|]. apply IH in Hi. lia. Qed.
Lemma isnum_ext A0 (v v' : list (F A0)) k : length v = length v' -> L_Spline.at_ A0 v k = L_Spline.at_ A0 v' k -> isnum A0 v k = isnum A0 v' k.
Proof.
  intros L E. destruct (Z.leb_spec 0 k), (Z.ltb_spec k (Z.of_nat (length v))).
  1: rewrite <- !at_num by lia; congruence.
  all: unfold isnum; rewrite !read_out by lia; auto.
Qed.

Section Flow.
Context (v : list (F A)) (nb sh : Z) (b : Q).
Hypothesis En : nb = Z.of_nat (length v).
Hypothesis Hs : 1 < sh <= 1000.
Hypothesis B0 : (0 <= b)%Q.
Hypothesis B1 : (b <= inject_Z (10 ^ 30))%Q.
Hypothesis Bv : forall f, isnum A v f = true -> bd (at_ v f) b.

Lemma flow_runs : forall fuel beg from y2 to, 0 <= beg -> length from = length v -> (length v <= length y2)%nat ->
  nb - beg < Z.of_nat fuel /\ 0 < Z.of_nat fuel -> nb * sh <= Z.of_nat (length to) ->
  (forall k, 0 <= k < Z.of_nat (length y2) -> bd (at_ y2 k) (14 * b)) ->
  (forall f, beg <= f <= nb - 2 -> at_ from f = at_ v f) ->
  (beg <= nb - 2 -> at_ from (nb - 1) = at_ v (nb - 1)) ->
  (beg = 0 \/ nb - 1 <= beg \/ isnum A v beg = false) ->
  exists to', cs_runs A fuel LTOH_FLOW from y2 nb sh beg to = Ok to' /\ length to' = length to /\
    forall f, beg <= f -> f + 1 < nb - 1 -> isnum A v (f - 1) = true -> isnum A v f = true -> isnum A v (f + 1) = true ->
      total A (block to' sh f) = at_ v f.
Proof.
  induction fuel as [|fuel IH]; intros beg from y2 to H0 Lf L2 Hk Hl B2 Same Last Start; cbn [cs_runs]; [lia|].
  destruct (advance_any A from nb beg ltac:(lia) H0) as (d & Ed & Bb & Nb & Sb). rewrite Ed. cbn [rbind].
  assert (Nv : forall k, beg <= k < nb -> beg <= nb - 2 -> isnum A from k = isnum A v k).
  { intros k Hk1 Hk2. apply isnum_ext; auto. destruct (Z.eq_dec k (nb - 1)) as [->|]; [apply Last; lia|apply Same; lia]. }
  destruct (Z.leb_spec nb d) as [Hnb|Hnb].
  { exists to. split; auto. split; auto. intros f F1 F2 _ N1 _. exfalso. rewrite <- Nv, Nb in N1 by lia. discriminate. }
  specialize (Sb Hnb).
  destruct (divide_run_spec A sh nb (Z.to_nat nb) from d ltac:(lia) ltac:(lia) ltac:(lia)) as (from' & e & -> & Lf' & De & Ne & Se & Rf). cbn [rbind].
  destruct (y2cs_spec A from' d (nb - d) y2) as (dim & y2' & q & w & -> & L2' & Hd & Dd & Dn & Ds & Q0 & W0 & Rc & Yd & Yr & Yk); [lia|lia|lia|lia|]. cbn [rbind].
  destruct (flow_blocks_spec A from' y2' sh ltac:(lia) ltac:(lia) (Z.to_nat dim) d (d * sh) to) as (to1 & -> & L1 & R1); [lia|lia|nia|nia|]. cbn [rbind].
  assert (He : d < e <= nb). { split; [|lia]. destruct (Z.eq_dec d e) as [<-|]; [|lia]. rewrite Se in Sb by lia. discriminate. }
  assert (N' : forall k, 0 <= k < nb -> isnum A from' k = isnum A from k).
  { intros k Hk1. rewrite <- !at_num by lia. rewrite Rf. destruct ((d <=? k) && (k <? e)) eqn:C; auto.
    assert (Hn : isnum A from k = true) by (apply Ne; destruct (Z.leb_spec d k), (Z.ltb_spec k e); cbn in C; try discriminate; lia).
    rewrite at_num, Hn by lia. apply isnum_at in Hn. destruct Hn as [_ Hn]. apply divide_num; [lia|exact Hn]. }
  (* where the run ends *)
  assert (Dim : d + dim < e /\ (e < nb - 1 -> d + dim + 1 = e) /\ (nb - 1 <= e -> 0 < dim -> d + dim = nb - 2) /\ (nb - 1 <= e -> d <= nb - 2 -> d + dim = nb - 2)).
  { assert (X : d + dim < e).
    { destruct (Z.ltb_spec (d + dim) e); auto. exfalso.
      assert (isnum A from e = true). { rewrite <- N' by lia. replace e with (d + (e - d)) by lia. apply Dn. lia. }
      rewrite Se in H1 by lia. discriminate. }
    assert (Y : nb - 1 <= e -> d <= nb - 2 -> d + dim = nb - 2).
    { intros Y1 Y2. destruct (Z.ltb_spec (dim + 1) (nb - d - 1)) as [C|C]; [|lia]. exfalso. specialize (Ds C).
      rewrite N', Ne in Ds by lia. discriminate. }
    repeat split; auto.
    - intros Y1. destruct (Z.eq_dec (d + dim + 1) e); auto. exfalso.
      assert (C : dim + 1 < nb - d - 1) by lia. specialize (Ds C). rewrite N', Ne in Ds by lia. discriminate.
    - intros Y1 Y2. apply Y; lia. }
  destruct Dim as (D1 & D2 & D3 & D3').
  (* the values of the run *)
  assert (Val : 0 < dim -> forall k, d <= k <= d + dim -> at_ from' k = (at_ v k / q_ofZ sh)%Qc /\ isnum A v k = true /\ bd (at_ from' k) b).
  { intros Pd k Hk1. assert (beg <= nb - 2) by lia. rewrite Rf. destruct (Z.leb_spec d k), (Z.ltb_spec k e); cbn [andb]; try lia.
    rewrite Same by lia. assert (Nk : isnum A v k = true) by (rewrite <- Nv, Ne by lia; reflexivity).
    split; [reflexivity|]. split; auto. apply bd_divZ; auto; lia. }
  assert (Y2b : forall k, 0 <= k < Z.of_nat (length y2') -> bd (at_ y2' k) (14 * b)).
  { intros k Hk1. destruct (Z.leb_spec k dim) as [C|C]; [|rewrite Yk by lia; apply B2; lia].
    destruct (Z.eq_dec dim 0) as [D0|D0].
    { assert (k = 0) by lia. subst k. rewrite D0 in Yd. rewrite Yd. change (ofZ A 0) with 0%Qc. split; change (this (Q2Qc 0)) with 0%Q; Lqa.lra. }
    apply (m_bound (fun k => at_ from' (d + k)) q w (at_ y2') dim b); auto; try lia.
    - intros i Hi. apply Rc. lia.
    - intros i Hi. destruct (Rc i ltac:(lia)) as [_ ->]. unfold diff, dd. replace (d + (i + 1)) with (d + i + 1) by lia. replace (d + (i - 1)) with (d + i - 1) by lia. reflexivity.
    - intros i Hi. apply Val; lia. }
  destruct (flow_total A sh nb ltac:(lia) fuel from' y2' to1 (d + (dim + 1)) ltac:(lia) ltac:(lia) ltac:(lia) ltac:(lia) ltac:(lia)) as (to3 & E3 & L3 & Fr3).
  destruct (IH (d + (dim + 1)) from' y2' to1) as (to2 & E2 & L4 & Sum); [lia|lia|lia|lia|lia|exact Y2b| | | |].
  { intros f Hf. destruct (Z.leb_spec (nb - 1) e) as [C|C].
    - assert (d + dim = nb - 2) by (apply D3'; lia). lia.
    - rewrite Rf. rewrite (D2 C) in *. destruct (Z.ltb_spec f e); [lia|]. rewrite andb_false_r. apply Same. lia. }
  { intros Hle. destruct (Z.leb_spec (nb - 1) e) as [C|C].
    - assert (d + dim = nb - 2) by (apply D3'; lia). lia.
    - rewrite Rf. destruct (Z.ltb_spec (nb - 1) e); [lia|]. rewrite andb_false_r. apply Last. lia. }
  { right. destruct (Z.leb_spec (nb - 1) e) as [C|C].
    - left. destruct (Z.leb_spec d (nb - 2)); [|lia]. pose proof (D3' C ltac:(lia)). lia.
    - right. replace (d + (dim + 1)) with e by (rewrite <- (D2 C); lia). rewrite <- Nv by lia. apply Se. lia. }
  rewrite E3 in E2. injection E2 as <-. exists to3. split; [exact E3|]. split; [congruence|].
  intros f F1 F2 N1 N2 N3.
  destruct (Z.leb_spec (d + (dim + 1)) f) as [C|C]; [apply Sum; auto|].
  (* in this run *)
  assert (Fd : d < f). { destruct (Z.ltb_spec d f); auto. exfalso. destruct (Z.eq_dec f d) as [->|].
    - destruct (Z.eq_dec beg d) as [<-|].
      + destruct Start as [->|[S1|S1]]; [|lia|rewrite S1 in N2; discriminate]. apply isnum_at in N1. lia.
      + specialize (Nb (d - 1) ltac:(lia)). rewrite Nv in Nb by lia. congruence.
    - specialize (Nb f ltac:(lia)). rewrite Nv in Nb by lia. congruence. }
  assert (Fe : f < d + dim).
  { destruct (Z.leb_spec (nb - 1) e) as [Ce|Ce]; [assert (d + dim = nb - 2) by (apply D3'; lia); lia|].
    destruct (Z.ltb_spec f (d + dim)); auto. exfalso. assert (f + 1 = e) by (rewrite <- (D2 Ce); lia).
    specialize (Se ltac:(lia)). rewrite Nv in Se by lia. congruence. }
  assert (Pd : 0 < dim) by lia. specialize (Val Pd).
  assert (Eb : block to3 sh f = map (corrected A (at_ from' f) sh (fun j => cs_at A from' y2' f (j - 1) sh)) (zrange 0 (Z.to_nat sh))).
  { unfold block. apply map_ext_in. intros j Hj. apply zrange_in in Hj.
    assert (W1 : d * sh <= f * sh) by (apply Z.mul_le_mono_nonneg_r; lia).
    assert (W2 : (f + 1) * sh <= (d + dim) * sh) by (apply Z.mul_le_mono_nonneg_r; lia).
    rewrite Fr3 by lia. rewrite R1, Z2Nat.id by lia.
    destruct (Z.leb_spec (d * sh) (f * sh + j)), (Z.ltb_spec (f * sh + j) (d * sh + dim * sh)); cbn [andb]; try lia. cbv zeta.
    replace (f * sh + j - d * sh) with (j + (f - d) * sh) by ring. rewrite Z.div_add, Z.mod_add by lia. rewrite Z.div_small, Z.mod_small by lia.
    replace (d + (0 + (f - d))) with f by lia. reflexivity. }
  rewrite Eb. destruct (Val f ltac:(lia)) as (Vf & Nf & Bf).
  rewrite (corrected_sum (at_ from' f) sh (fun j => cs_at A from' y2' f (j - 1) sh) b); auto; try lia.
  - rewrite Vf. qc. field. apply qz_ne. lia.
  - intros i Hi. assert (Q : (i - 1) / sh = -1 \/ (i - 1) / sh = 0).
    { destruct (Z.eq_dec i 0) as [->|]; [left; symmetry; apply (Z.div_unique_pos _ _ _ (sh - 1)); lia|right; apply Z.div_small; lia]. }
    assert (R : d <= f + (i - 1) / sh /\ f + (i - 1) / sh + 1 <= d + dim) by lia. destruct R as [R2 R3].
    destruct (Val (f + (i - 1) / sh) ltac:(lia)) as (_ & _ & V1). destruct (Val (f + (i - 1) / sh + 1) ltac:(lia)) as (_ & _ & V2).
    unfold cs_at. destruct (Val (f + (i - 1) / sh) ltac:(lia)) as (_ & X1 & _), (Val (f + (i - 1) / sh + 1) ltac:(lia)) as (_ & X2 & _).
    rewrite !N', !Nv, X1, X2 by lia. cbn [andb]. apply cs_val_bound; auto; try lia; apply Y2b; lia.
Qed.
Lemma flow_vector tnb : nb * sh <= tnb -> exists to, ltoh_vector A LTOH_CS LTOH_FLOW sh nb tnb v = Ok to /\ Z.of_nat (length to) = tnb /\
  forall f, f + 1 < nb - 1 -> isnum A v (f - 1) = true -> isnum A v f = true -> isnum A v (f + 1) = true -> total A (block to sh f) = at_ v f.
Proof.
  intros Ht. unfold ltoh_vector. destruct (Z.ltb_spec tnb 0); [nia|].
  destruct (flow_runs (S (Z.to_nat nb)) 0 v (repeat (ofZ A 0) (Z.to_nat nb)) (repeat (na A) (Z.to_nat tnb))) as (to & E & L & S);
    rewrite ?repeat_length in *; try lia; auto.
  - intros k Hk. unfold L_Spline.at_. rewrite read_repeat. destruct (Z.leb_spec 0 k), (Z.ltb_spec k (Z.of_nat (Z.to_nat nb))); cbn [andb]; try lia.
    change (ofZ A 0) with 0%Qc. split; change (this (Q2Qc 0)) with 0%Q; Lqa.lra.
  - exists to. split; auto. split; [lia|]. intros f F1 N1 N2 N3. apply S; auto. apply isnum_at in N2. lia.
Qed.
End Flow.
