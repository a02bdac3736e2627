(** Lemmas on the decimal texts of doubles: the number read is the nearest double, and 15 digits are recovered. *)
From Coq Require Import ZArith Ascii String List Bool Lia Floats.SpecFloat.
From Verif Require Import M_Base M_Time M_Names M_Lex M_Double M_Decimal L_Decimal L_Round.
From Coq Require Import Floats.FloatOps.
Import ListNotations.
Open Scope Z_scope.

(** * The magnitude of a ratio *)
Lemma mag_exists N D : 0 < N -> 0 < D -> D <= N * 2 ^ 3000 -> exists M, mag N D M /\ - K0 < M.
Proof.
  intros HN HD R. set (f := N * q2 0 / D). assert (F : 0 < f) by (apply Z.div_str_pos; split; [lia|exact R]).
  exists (Z.log2 f + 1 - K0). pose proof (Z.log2_spec f F) as [L1 L2]. pose proof (Z.log2_nonneg f) as L0.
  pose proof (Z.div_mod (N * q2 0) D ltac:(lia)) as E. pose proof (Z.mod_pos_bound (N * q2 0) D HD) as B. fold f in E.
  split; [|unfold K0; lia]. unfold mag. unfold q2 at 1 4. replace (Z.log2 f + 1 - K0 - 1 + K0) with (Z.log2 f) by lia.
  replace (Z.log2 f + 1 - K0 + K0) with (Z.succ (Z.log2 f)) by lia. nia.
Qed.
(** Between 10^-307 and 10^308. *)
Definition ranged (N D : Z) : Prop := D <= N * 10 ^ 307 /\ N <= D * 10 ^ 308.
Lemma ranged_mag N D M : 0 < N -> 0 < D -> ranged N D -> mag N D M -> - K0 < M -> -1019 <= M <= 1024.
Proof.
  intros HN HD [R1 R2] [M1 M2] HM. split.
  - destruct (Z.le_gt_cases (-1019) M) as [C|C]; [exact C|exfalso].
    assert (A : q2 M <= q2 (-1020)) by (unfold q2; apply Z.pow_le_mono_r; unfold K0; lia).
    assert (B : 10 ^ 307 * q2 (-1020) < q2 0) by (vm_compute; reflexivity).
    pose proof (q2_pos (-1020) ltac:(unfold K0; lia)). assert (0 < 10 ^ 307) by (vm_compute; reflexivity).
    set (c := 10 ^ 307) in *. set (u := q2 (-1020)) in *. set (w := q2 0) in *. clearbody c u w. assert (N * w < D * u) by nia.
    assert (N * (c * u) < N * w) by nia. nia.
  - destruct (Z.le_gt_cases M 1024) as [C|C]; [exact C|exfalso].
    assert (A : q2 1024 <= q2 (M - 1)) by (unfold q2; apply Z.pow_le_mono_r; unfold K0; lia).
    assert (B : 10 ^ 308 * q2 0 < q2 1024) by (vm_compute; reflexivity).
    pose proof (q2_pos 0 ltac:(unfold K0; lia)).
    set (c := 10 ^ 308) in *. set (u := q2 1024) in *. set (w := q2 0) in *. clearbody c u w. assert (D * u <= N * w) by nia. nia.
Qed.
Lemma ranged_exists N D : 0 < N -> 0 < D -> ranged N D -> exists M, mag N D M /\ -1019 <= M <= 1024.
Proof.
  intros HN HD R. destruct (mag_exists N D HN HD) as (M & A & B).
  - destruct R as [R _]. assert (10 ^ 307 <= 2 ^ 3000) by (vm_compute; discriminate).
    set (c := 10 ^ 307) in *. set (u := 2 ^ 3000) in *. clearbody c u. nia.
  - exists M. split; [exact A|]. apply (ranged_mag N D); assumption.
Qed.
Lemma ranged_ratio N D N' D' : 0 < D -> 0 < D' -> N * D' = N' * D -> ranged N D -> ranged N' D'.
Proof.
  intros H H' E [A B]. assert (P : 0 < 10 ^ 307) by (vm_compute; reflexivity). assert (Q : 0 < 10 ^ 308) by (vm_compute; reflexivity).
  set (c := 10 ^ 307) in *. set (u := 10 ^ 308) in *. unfold ranged. fold c u. clearbody c u. split.
  - apply (Z.mul_le_mono_pos_r _ _ D); [exact H|]. replace (N' * c * D) with (N * c * D') by (transitivity (N' * D * c); [rewrite <- E; ring|ring]). nia.
  - apply (Z.mul_le_mono_pos_r _ _ D); [exact H|]. rewrite <- E. nia.
Qed.

(** A normal double. *)
Definition normal (mx : positive) (ex : Z) : Prop := 2 ^ 52 <= Z.pos mx < 2 ^ 53 /\ -1074 <= ex <= 971.
Lemma near_finite s N D M : 0 < N -> 0 < D -> mag N D M -> -1021 <= M <= 1024 -> N <= D * 10 ^ 308 ->
  exists mx ex, near s N D M = S754_finite s mx ex /\ normal mx ex /\
    - (D * q2 (M - 53)) <= 2 * (Z.pos mx * q2 ex * D - N * q2 0) <= D * q2 (M - 53).
Proof.
  intros HN HD [M1 M2] HM R. unfold near. assert (E : fx M = M - 53) by (unfold fx; lia). rewrite E.
  pose proof (q2_pos 0 ltac:(unfold K0; lia)) as Q0. pose proof (q2_pos (M - 53) ltac:(unfold K0; lia)) as QE.
  replace (M - 1) with (M - 53 + 52) in M1 by lia. replace M with (M - 53 + 53) in M2 by lia. rewrite q2_add in M1, M2 by (unfold K0; lia).
  assert (CAP : M = 1024 -> N * q2 0 <= (2 ^ 53 - 1) * (D * q2 (M - 53))).
  { intros ->. change (1024 - 53) with 971. assert (B : 10 ^ 308 * q2 0 <= (2 ^ 53 - 1) * q2 971) by (vm_compute; discriminate).
    set (c := 10 ^ 308) in *. set (w := q2 0) in *. set (u := q2 971) in *. clearbody c w u. assert (N * w <= D * (c * w)) by nia. nia. }
  set (a := N * q2 0) in *. set (u := q2 (M - 53)) in *. assert (B : 0 < D * u) by nia.
  pose proof (round_div_bound a (D * u) B ltac:(unfold a; nia)) as [RB R0]. set (k := round_div a (D * u)) in *. clearbody k.
  assert (K1 : 2 ^ 52 <= k) by nia. assert (K2 : k <= 2 ^ 53) by nia. unfold finish. destruct (k =? 2 ^ 53) eqn:C.
  - apply Z.eqb_eq in C. assert (M <= 1023).
    { destruct (Z.eq_dec M 1024) as [F|F]; [|lia]. specialize (CAP F). exfalso. rewrite C in RB. nia. }
    unfold norm. change (2 ^ 52) with (Z.pos (2 ^ 52)) at 1. replace (M - 53 + 1 <=? 971) with true by lia.
    exists (2 ^ 52)%positive, (M - 53 + 1). split; [reflexivity|]. split; [split; [split; vm_compute; congruence|lia]|].
    rewrite q2_add by (unfold K0; lia). fold u. change (Z.pos (2 ^ 52)) with (2 ^ 52). change (2 ^ 1) with 2. rewrite C in RB. lia.
  - apply Z.eqb_neq in C. destruct k as [|mx|mx]; try lia. unfold norm. replace (M - 53 <=? 971) with true by lia.
    exists mx, (M - 53). split; [reflexivity|]. split; [split; [lia|lia]|]. fold u. lia.
Qed.

(** * Decimal numbers *)
Definition num10 (m k : Z) : Z := fst (scale m 1 k).
Definition den10 (m k : Z) : Z := snd (scale m 1 k).
Lemma num10_pos m k : 0 < m -> 0 < num10 m k.
Proof. intros. apply (scale_pos m 1 k); lia. Qed.
Lemma den10_pos m k : 0 < m -> 0 < den10 m k.
Proof. intros. apply (scale_pos m 1 k); lia. Qed.
Lemma pow_ge a k : 2 <= a -> 0 <= k -> k + 1 <= a ^ k.
Proof.
  intros A K. pattern k. apply natlike_ind; [cbn; lia| |exact K]. intros x X H. rewrite Z.pow_succ_r by lia. nia.
Qed.
Lemma decimal_near m k M : 0 < m -> ranged (num10 m k) (den10 m k) -> mag (num10 m k) (den10 m k) M -> -1019 <= M <= 1024 ->
  d_decimal m k = near false (num10 m k) (den10 m k) M.
Proof.
  intros P [R1 R2] MG HM. unfold d_decimal. destruct m as [|p|p]; try lia.
  assert (L1 : (400 <? k) = false).
  { apply Z.ltb_ge. destruct (Z.le_gt_cases k 400) as [C|C]; [exact C|exfalso].
    unfold num10, den10, scale in R2. replace (0 <=? k) with true in R2 by lia. cbn [fst snd] in R2.
    assert (10 ^ 309 <= 10 ^ k) by (apply Z.pow_le_mono_r; lia). assert (B : 10 ^ 308 < 10 ^ 309) by (vm_compute; reflexivity).
    pose proof (p10 k ltac:(lia)). set (x := 10 ^ k) in *. set (c := 10 ^ 309) in *. set (u := 10 ^ 308) in *. clearbody x c u. nia. }
  assert (L2 : (k <? - (400 + Z.log2 (Z.pos p))) = false).
  { apply Z.ltb_ge. destruct (Z.le_gt_cases (- (400 + Z.log2 (Z.pos p))) k) as [C|C]; [exact C|exfalso].
    pose proof (Z.log2_nonneg (Z.pos p)) as L0. pose proof (Z.log2_spec (Z.pos p) P) as [_ L]. set (l := Z.log2 (Z.pos p)) in *. clearbody l.
    unfold num10, den10, scale in R1. replace (0 <=? k) with false in R1 by lia. cbn [fst snd] in R1. rewrite Z.mul_1_l in R1.
    assert (A : 10 ^ (Z.succ l) * 10 ^ 307 <= 10 ^ (- k)) by (rewrite <- Z.pow_add_r by lia; apply Z.pow_le_mono_r; lia).
    assert (B : 2 ^ Z.succ l <= 10 ^ Z.succ l) by (apply Z.pow_le_mono_l; lia).
    assert (0 < 10 ^ 307) by (vm_compute; reflexivity). assert (Z.pos p < 10 ^ Z.succ l) by lia.
    set (u := 10 ^ 307) in *. set (t := 10 ^ Z.succ l) in *. set (x := 10 ^ (- k)) in *. set (z := Z.pos p) in *. clear -A R1 H H0.
    clearbody u t x z. nia. }
  rewrite L1, L2. unfold num10, den10, scale in *. destruct (0 <=? k) eqn:E; cbn [fst snd] in *.
  - apply ofZ_near; [pose proof (p10 k ltac:(lia)); nia|exact MG|unfold K0; lia].
  - rewrite Z.mul_1_l in *. pose proof (p10 (- k) ltac:(lia)) as T. destruct (10 ^ (- k)) as [|q|q] eqn:Q; try lia. cbn [Z.to_pos].
    apply div_near; [exact MG|lia].
Qed.
(** m * 10^k = m' * 10^k' *)
Definition same10 (m k m' k' : Z) : Prop := num10 m k * den10 m' k' = num10 m' k' * den10 m k.
Lemma same10_shift m k j : 0 <= j -> same10 (m * 10 ^ j) k m (k + j).
Proof.
  intros J. unfold same10, num10, den10, scale. destruct (0 <=? k) eqn:A, (0 <=? k + j) eqn:B; cbn [fst snd]; try lia.
  - rewrite (Z.pow_add_r 10 k j) by lia. ring.
  - assert (F : 10 ^ j = 10 ^ (k + j) * 10 ^ (- k)) by (rewrite <- Z.pow_add_r by lia; f_equal; lia). rewrite F. ring.
  - assert (F : 10 ^ (- k) = 10 ^ (- (k + j)) * 10 ^ j) by (rewrite <- Z.pow_add_r by lia; f_equal; lia). rewrite F. ring.
Qed.
Lemma decimal_same m k m' k' : 0 < m -> 0 < m' -> same10 m k m' k' -> ranged (num10 m k) (den10 m k) -> d_decimal m k = d_decimal m' k'.
Proof.
  intros P P' E R. pose proof (num10_pos m k P). pose proof (den10_pos m k P). pose proof (den10_pos m' k' P').
  destruct (ranged_exists (num10 m k) (den10 m k) ltac:(assumption) ltac:(assumption) R) as (M & MG & HM).
  rewrite (decimal_near m k M P R MG HM).
  rewrite (decimal_near m' k' M P'); [apply near_ratio; assumption| |eapply mag_ratio; [| | |exact MG]; assumption|exact HM].
  eapply ranged_ratio; [| | |exact R]; assumption.
Qed.

(** * Scaling *)
Lemma scale_shift n d z j : 0 <= j -> fst (scale n d (z + j)) * snd (scale n d z) = fst (scale n d z) * snd (scale n d (z + j)) * 10 ^ j.
Proof.
  intros J. unfold scale. destruct (0 <=? z) eqn:A, (0 <=? z + j) eqn:B; cbn [fst snd]; try lia.
  - rewrite (Z.pow_add_r 10 z j) by lia. ring.
  - assert (F : 10 ^ j = 10 ^ (z + j) * 10 ^ (- z)) by (rewrite <- Z.pow_add_r by lia; f_equal; lia). rewrite F. ring.
  - assert (F : 10 ^ (- z) = 10 ^ (- (z + j)) * 10 ^ j) by (rewrite <- Z.pow_add_r by lia; f_equal; lia). rewrite F. ring.
Qed.
Lemma has_exp_scaled n d x j : 0 < n -> 0 < d -> 0 <= j ->
  10 ^ j * snd (scale n d (j - x)) <= fst (scale n d (j - x)) < 10 ^ (j + 1) * snd (scale n d (j - x)) -> has_exp n d x.
Proof.
  intros N D J H. unfold has_exp. pose proof (scale_shift n d (- x) j J) as E. replace (- x + j) with (j - x) in E by lia.
  pose proof (scale_pos n d (- x) N D) as [A B]. pose proof (scale_pos n d (j - x) N D) as [A' B'].
  destruct (scale n d (- x)) as [a b]. destruct (scale n d (j - x)) as [a' b']. cbn [fst snd] in *. rewrite p10S in H by lia. pose proof (p10 j J) as T.
  set (t := 10 ^ j) in *. clearbody t. destruct H as [H1 H2]. split.
  - assert (t * b' * b <= a * b' * t) by nia. assert (0 < t * b') by nia. nia.
  - assert (a * b' * t < 10 * t * b' * b) by nia. assert (0 < t * b') by nia. nia.
Qed.

(** * The digits are recovered *)
Lemma recover p n d r y : 1 <= p <= 15 -> 0 < n -> 0 < d -> 10 ^ (p - 1) <= r < 10 ^ p ->
  n < d * 10 ^ 399 -> d <= n * 10 ^ 399 ->
  (let N := num10 r (y - (p - 1)) in let D := den10 r (y - (p - 1)) in - (N * d) <= 2 ^ 53 * (n * D - N * d) <= N * d) ->
  digits_of p n d = (r, y).
Proof.
  intros P HN HD R UP LO H. cbn zeta in H. pose proof (p10 (p - 1) ltac:(lia)) as T1.
  assert (T10 : 10 ^ p = 10 * 10 ^ (p - 1)) by (rewrite <- p10S by lia; f_equal; lia).
  assert (CAP : 10 ^ p <= 10 ^ 15) by (apply Z.pow_le_mono_r; lia). change (10 ^ 15) with 1000000000000000 in CAP.
  change (2 ^ 53) with 9007199254740992 in H.
  set (c := y - (p - 1)) in *. pose proof (scale_pos n d (- c) HN HD) as [A B].
  (* |a - r b| * 2^53 <= r b *)
  assert (S : let '(a, b) := scale n d (- c) in - (r * b) <= 9007199254740992 * (a - r * b) <= r * b).
  { unfold num10, den10, scale in *. destruct (0 <=? c) eqn:C1, (0 <=? - c) eqn:C2; cbn [fst snd] in *; try lia.
    - assert (Cz : c = 0) by lia. rewrite Cz in *. change (10 ^ 0) with 1 in *. change (10 ^ (- 0)) with 1. lia.
    - replace (- - c) with c by lia. replace (r * (d * 10 ^ c)) with (r * 10 ^ c * d) by ring. lia. }
  destruct (exp10_spec n d HN HD UP LO) as [HE _]. unfold digits_of.
  destruct (scale n d (- c)) as [a b] eqn:Sc. cbn [fst snd] in A, B.
  destruct (Z.le_gt_cases (10 ^ (p - 1) * b) a) as [C|C].
  - assert (X : exp10 n d = y).
    { apply (exp_unique n d); [exact HN|exact HD|exact HE|]. apply (has_exp_scaled n d y (p - 1)); try lia.
      replace (p - 1 - y) with (- c) by lia. rewrite Sc. cbn [fst snd]. replace (p - 1 + 1) with p by lia. split; [exact C|]. nia. }
    rewrite X. replace (p - 1 - y) with (- c) by lia. rewrite Sc.
    rewrite (round_div_near a b r B) by nia. replace (r =? 10 ^ p) with false by lia. reflexivity.
  - assert (RE : r = 10 ^ (p - 1)) by (destruct (Z.eq_dec r (10 ^ (p - 1))) as [F|F]; [exact F|exfalso; nia]).
    pose proof (scale_shift n d (- c) 1 ltac:(lia)) as E. rewrite Sc in E. cbn [fst snd] in E. change (10 ^ 1) with 10 in E.
    pose proof (scale_pos n d (- c + 1) HN HD) as [A' B'].
    assert (X : exp10 n d = y - 1).
    { apply (exp_unique n d); [exact HN|exact HD|exact HE|]. apply (has_exp_scaled n d (y - 1) (p - 1)); try lia.
      replace (p - 1 - (y - 1)) with (- c + 1) by lia. replace (p - 1 + 1) with p by lia.
      destruct (scale n d (- c + 1)) as [a' b']. cbn [fst snd] in *. rewrite T10. set (t := 10 ^ (p - 1)) in *. clearbody t. split.
      - assert (t * b' * b <= a' * b) by (rewrite E; nia). nia.
      - assert (a' * b < 10 * t * b' * b) by (rewrite E; nia). nia. }
    rewrite X. replace (p - 1 - (y - 1)) with (- c + 1) by lia. destruct (scale n d (- c + 1)) as [a' b']. cbn [fst snd] in *.
    rewrite (round_div_near a' b' (10 ^ p) B').
    + rewrite Z.eqb_refl. f_equal; [symmetry; exact RE|lia].
    + rewrite T10. rewrite <- RE. set (t := 10 ^ (p - 1)) in *. clearbody t.
      assert (G1 : - (b' * b) < 2 * (a' * b - 10 * r * b' * b) < b' * b) by (rewrite E; nia). nia.
Qed.
