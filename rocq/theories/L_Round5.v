(** d_decimal is the nearest double. *)
From Coq Require Import ZArith Ascii String List Bool Lia Floats.SpecFloat.
From Verif Require Import M_Base M_Double M_Decimal S_Ascii L_Decimal L_Round L_Round2 L_Round3 L_Round4.
Import ListNotations.
Open Scope Z_scope.

Lemma near_value s N D M mx ex : -1021 <= M <= 1024 -> near s N D M = S754_finite s mx ex ->
  Z.pos mx * q2 ex = round_div (N * q2 0) (D * q2 (fx M)) * q2 (fx M).
Proof.
  intros HM. unfold near, finish. set (k := round_div _ _). destruct (k =? 2 ^ 53) eqn:E.
  - apply Z.eqb_eq in E. rewrite E. change (2 ^ 52) with 4503599627370496. unfold norm. destruct (_ <=? 971); [|discriminate]. intros H. injection H as <- <-.
    rewrite q2_add by (unfold fx, K0; lia). change (2 ^ 1) with 2. change (2 ^ 53) with 9007199254740992. lia.
  - unfold norm. destruct k as [|q|q]; try discriminate. destruct (_ <=? 971); [|discriminate]. intros H. injection H as <- <-. reflexivity.
Qed.
Lemma round_best A U k j : 0 < U -> 2 * A - U <= 2 * (k * U) <= 2 * A + U -> Z.abs (k * U - A) <= Z.abs (j * U - A).
Proof.
  intros P B. destruct (Z.eq_dec j k) as [-> |NE]; [lia|]. destruct (Z.lt_ge_cases j k) as [C|C].
  - assert (j * U <= k * U - U) by nia. lia.
  - assert (k * U + U <= j * U) by nia. lia.
Qed.
Lemma near_best N D M mx ex mz ez : 0 < N -> 0 < D -> mag N D M -> -1019 <= M <= 1024 -> near false N D M = S754_finite false mx ex ->
  Z.pos mz < 2 ^ 53 -> -1074 <= ez <= 971 ->
  Z.abs (Z.pos mx * q2 ex * D - N * q2 0) <= Z.abs (Z.pos mz * q2 ez * D - N * q2 0).
Proof.
  intros HN HD MG HM NE Z1 Z2. pose proof (near_value false N D M mx ex ltac:(lia) NE) as V. rewrite V.
  set (U := D * q2 (fx M)). set (A := N * q2 0) in *. pose proof (q2_pos (fx M) ltac:(unfold fx, K0; lia)) as QF. pose proof (q2_pos 0 ltac:(unfold K0; lia)) as Q0.
  assert (UP : 0 < U) by (unfold U; nia). assert (AP : 0 <= A) by (unfold A; nia).
  pose proof (round_div_bound A U UP AP) as [RB _]. fold U. set (k := round_div A U) in *. clearbody k.
  replace (k * q2 (fx M) * D) with (k * U) by (unfold U; ring).
  destruct (Z.le_gt_cases (fx M) ez) as [C|C].
  - replace (Z.pos mz * q2 ez * D) with (Z.pos mz * 2 ^ (ez - fx M) * U).
    + apply round_best; [exact UP|lia].
    + unfold U. replace ez with (fx M + (ez - fx M)) at 2 by lia. rewrite q2_add by (unfold fx, K0 in *; lia). ring.
  - assert (L : 2 ^ 52 * U <= A).
    { destruct MG as [G _]. fold A in G. unfold U. assert (F : fx M = M - 53) by (unfold fx in *; lia). rewrite F.
      replace (M - 1) with (M - 53 + 52) in G by lia. rewrite q2_add in G by (unfold K0; lia). set (b := 2 ^ 52) in *. set (v := q2 (M - 53)) in *. clearbody b v. nia. }
    assert (S : Z.pos mz * q2 ez * D <= 2 ^ 52 * U).
    { assert (E : q2 (fx M) = q2 (ez + 1) * 2 ^ (fx M - (ez + 1))) by (rewrite <- q2_add by (unfold K0; lia); f_equal; lia).
      assert (2 * q2 ez = q2 (ez + 1)) by (rewrite q2_add by (unfold K0; lia); change (2 ^ 1) with 2; lia).
      pose proof (q2_pos ez ltac:(unfold K0; lia)). pose proof (p2 (fx M - (ez + 1)) ltac:(lia)).
      assert (q2 (ez + 1) <= q2 (fx M)) by (rewrite E; nia). change (2 ^ 53) with (2 * 2 ^ 52) in Z1. unfold U.
      set (b := 2 ^ 52) in *. assert (0 < b) by (vm_compute; reflexivity). set (v := q2 ez) in *. set (w := q2 (fx M)) in *. set (z := Z.pos mz) in *. clear - Z1 H H0 H2 H3 HD.
      assert (2 * v <= w) by lia. clear H H2. assert (z * v <= b * w) by nia. nia. }
    pose proof (round_best A U k (2 ^ 52) UP ltac:(lia)). set (b := 2 ^ 52) in *. clearbody b. lia.
Qed.
Lemma decimal_nearest m k z : 0 < m -> ranged (num10 m k) (den10 m k) -> is_finite z -> valid_binary prec emax z = true -> negative z = false ->
  let x := d_decimal m k in let N := num10 m k in let D := den10 m k in
  Z.abs (numer x * D - N * denom x) * denom z <= Z.abs (numer z * D - N * denom z) * denom x.
Proof.
  intros M R FZ VZ SZ x N D. destruct z as [s|s| |s mz ez]; try contradiction. cbn [negative] in SZ. subst s.
  destruct (valid_bounds false mz ez VZ) as (Z1 & Z2 & _).
  pose proof (num10_pos m k M) as HN. pose proof (den10_pos m k M) as HD. destruct (ranged_exists _ _ HN HD R) as (G & MG & HM).
  pose proof (decimal_near m k G M R MG HM) as DN. destruct (decimal_finite m k M R) as (mx & ex & E & [[_ NM] NX] & _).
  assert (NE : near false (num10 m k) (den10 m k) G = S754_finite false mx ex) by (rewrite <- DN; exact E).
  pose proof (near_best _ _ G mx ex mz ez HN HD MG HM NE Z1 Z2) as B. unfold x. rewrite E. fold N in B. fold D in B.
  change (numer (S754_finite false mx ex)) with (frac_n mx ex). change (denom (S754_finite false mx ex)) with (frac_d ex).
  change (numer (S754_finite false mz ez)) with (frac_n mz ez). change (denom (S754_finite false mz ez)) with (frac_d ez).
  destruct (frac_spec mx ex NM NX) as (A1 & B1 & Q1 & _). destruct (frac_spec mz ez Z1 Z2) as (A2 & B2 & Q2 & _).
  pose proof (q2_pos 0 ltac:(unfold K0; lia)) as Q0. set (w := q2 0) in *. set (u := Z.pos mx * q2 ex) in *. set (v := Z.pos mz * q2 ez) in *.
  set (n := frac_n mx ex) in *. set (d := frac_d ex) in *. set (n' := frac_n mz ez) in *. set (d' := frac_d ez) in *. clear - B B1 B2 Q1 Q2 Q0. clearbody w u v n d n' d' N D.
  assert (E1 : Z.abs (n * D - N * d) * w = Z.abs (u * D - N * w) * d).
  { rewrite <- (Z.abs_eq w) at 1 by lia. rewrite <- (Z.abs_eq d) at 2 by lia. rewrite <- !Z.abs_mul. f_equal. replace ((n * D - N * d) * w) with (n * w * D - N * d * w) by ring. rewrite Q1. ring. }
  assert (E2 : Z.abs (n' * D - N * d') * w = Z.abs (v * D - N * w) * d').
  { rewrite <- (Z.abs_eq w) at 1 by lia. rewrite <- (Z.abs_eq d') at 2 by lia. rewrite <- !Z.abs_mul. f_equal. replace ((n' * D - N * d') * w) with (n' * w * D - N * d' * w) by ring. rewrite Q2. ring. }
  apply (Z.mul_le_mono_pos_r _ _ w Q0).
  replace (Z.abs (n * D - N * d) * d' * w) with (Z.abs (n * D - N * d) * w * d') by ring. rewrite E1.
  replace (Z.abs (n' * D - N * d') * d * w) with (Z.abs (n' * D - N * d') * w * d) by ring. rewrite E2.
  set (a := Z.abs (u * D - N * w)) in *. set (b := Z.abs (v * D - N * w)) in *. clearbody a b. clear - B B1 B2.
  replace (a * d * d') with (a * (d * d')) by ring. replace (b * d' * d) with (b * (d * d')) by ring. apply Z.mul_le_mono_nonneg_r; [nia|exact B].
Qed.
