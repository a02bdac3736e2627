(** Lemmas on numbers written with p digits and read again. *)
From Coq Require Import ZArith Ascii String List Bool Lia Floats.SpecFloat.
From Verif Require Import M_Base M_Time M_Names M_Lex M_Double M_Decimal M_Ascii S_Ascii L_Time L_Decimal L_Round L_Round2 L_Round3.
Import ListNotations.
Open Scope Z_scope.

(** * Signs *)
Definition sgn (s : bool) (x : dbl) : dbl := if s then SFopp x else x.
Lemma sgn_finite s m e : sgn s (S754_finite false m e) = S754_finite s m e.
Proof. destruct s; reflexivity. Qed.
Lemma near_opp N D M : near true N D M = SFopp (near false N D M).
Proof. unfold near, finish, norm. destruct (_ =? _); [destruct (fx M + 1 <=? 971); reflexivity|]. destruct (round_div _ _); try reflexivity. destruct (fx M <=? 971); reflexivity. Qed.
Lemma ofZ_opp v : 0 < v -> d_ofZ (- v) = SFopp (d_ofZ v).
Proof.
  intros V. destruct (mag_exists v 1 V ltac:(lia)) as (M & MG & MB); [pose proof (p2 3000 ltac:(lia)); set (u := 2 ^ 3000) in *; clearbody u; nia|].
  rewrite (ofZ_near_neg v M V MG MB), (ofZ_near v M V MG MB). apply near_opp.
Qed.
Lemma minus_one : d_ofZ (-1) = S754_finite true 4503599627370496 (-52).
Proof. vm_compute. reflexivity. Qed.
Lemma mul_minus m e : normal m e -> d_mul (d_ofZ (-1)) (S754_finite false m e) = S754_finite true m e.
Proof.
  intros [[M1 M2] E]. rewrite minus_one. unfold d_mul, SFmul. change (xorb true false) with true.
  set (n := Z.pos (4503599627370496 * m)). assert (Hn : n = Z.pos m * 2 ^ 52) by (unfold n; rewrite Pos2Z.inj_mul; change (2 ^ 52) with 4503599627370496; lia).
  assert (D : Zdigits2 n = 105).
  { apply digits_unique; [lia|lia|]. rewrite Hn. change (105 - 1) with (52 + 52). change 105 with (53 + 52). rewrite !Z.pow_add_r by lia.
    set (b := 2 ^ 52) in *. set (c := 2 ^ 53) in *. assert (0 < b) by (vm_compute; reflexivity). clearbody b c. nia. }
  pose proof (aux_spec true n 1 (-52 + e) loc_Exact ltac:(lia)) as A. rewrite Z.div_1_r in A. specialize (A ltac:(lia)). rewrite D in A.
  specialize (A ltac:(unfold fx; lia) (inrec_exact n)). cbn zeta in A. etransitivity; [exact A|].
  replace (fx (105 + (-52 + e))) with e by (unfold fx; lia). replace (e - (-52 + e)) with 52 by lia.
  rewrite Hn. rewrite Z.mul_1_l. rewrite (round_div_exact (Z.pos m) (2 ^ 52)) by (apply p2; lia).
  unfold finish. replace (Z.pos m =? 2 ^ 53) with false by lia. unfold norm. replace (e <=? 971) with true by lia. reflexivity.
Qed.
Lemma decimal_ofZ v : 0 <= v -> d_decimal v 0 = d_ofZ v.
Proof.
  intros V. destruct v as [|v|v]; [reflexivity| |lia]. unfold d_decimal. change (400 <? 0) with false. cbv iota.
  replace (0 <? - (400 + Z.log2 (Z.pos v))) with false by (pose proof (Z.log2_nonneg (Z.pos v)); lia). change (0 <=? 0) with true. cbv iota.
  f_equal. change (10 ^ 0) with 1. lia.
Qed.

(** * Uniqueness of the digits *)
Lemma same10_trans a i b j c k : 0 < b -> same10 a i b j -> same10 b j c k -> same10 a i c k.
Proof.
  unfold same10. intros B X Y. pose proof (den10_pos b j B) as D. pose proof (num10_pos b j B) as N.
  set (na := num10 a i) in *. set (da := den10 a i) in *. set (nb := num10 b j) in *. set (db := den10 b j) in *.
  set (nc := num10 c k) in *. set (dc := den10 c k) in *. clearbody na da nb db nc dc. apply (Z.mul_reg_r _ _ db); [lia|].
  transitivity (nb * da * dc); [rewrite <- X; ring|]. transitivity (nc * db * da); [rewrite <- Y; ring|ring].
Qed.
Lemma same10_exact a b k : same10 a k b k -> a = b.
Proof.
  unfold same10, num10, den10, scale. destruct (0 <=? k) eqn:E; cbn [fst snd].
  - pose proof (p10 k ltac:(lia)). nia.
  - pose proof (p10 (- k) ltac:(lia)). nia.
Qed.
Lemma same10_less p r y r' y' : 1 <= p -> 10 ^ (p - 1) <= r < 10 ^ p -> 10 ^ (p - 1) <= r' < 10 ^ p ->
  same10 r (y - (p - 1)) r' (y' - (p - 1)) -> y' <= y.
Proof.
  intros P R R' S. destruct (Z.le_gt_cases y' y) as [C|C]; [exact C|exfalso]. pose proof (p10 (p - 1) ltac:(lia)) as T.
  pose proof (same10_shift r' (y - (p - 1)) (y' - y) ltac:(lia)) as H. replace (y - (p - 1) + (y' - y)) with (y' - (p - 1)) in H by lia.
  apply same10_sym in H. pose proof (same10_trans r _ r' _ _ _ ltac:(lia) S H) as X. apply same10_exact in X.
  assert (10 ^ 1 <= 10 ^ (y' - y)) by (apply Z.pow_le_mono_r; lia). change (10 ^ 1) with 10 in *.
  replace (10 ^ p) with (10 * 10 ^ (p - 1)) in * by (rewrite <- p10S by lia; f_equal; lia). nia.
Qed.
Lemma same10_unique p r y r' y' : 1 <= p -> 10 ^ (p - 1) <= r < 10 ^ p -> 10 ^ (p - 1) <= r' < 10 ^ p ->
  same10 r (y - (p - 1)) r' (y' - (p - 1)) -> r = r' /\ y = y'.
Proof.
  intros P R R' S. pose proof (same10_less p r y r' y' P R R' S). pose proof (same10_less p r' y' r y P R' R (same10_sym _ _ _ _ S)).
  assert (y = y') by lia. subst y'. split; [exact (same10_exact _ _ _ S)|reflexivity].
Qed.

(** * The double that is read *)
Definition stored (p : Z) (x : dbl) : dbl :=
  match x with
  | S754_finite s m e => let '(r, y) := digits_of p (frac_n m e) (frac_d e) in sgn s (d_decimal r (y - (p - 1)))
  | S754_zero _ => S754_zero false
  | _ => x
  end.
Lemma small_ranged p m k : 1 <= p -> 0 < m < 10 ^ p -> -306 <= k <= 306 - p -> ranged (num10 m k) (den10 m k).
Proof.
  intros P M K. unfold num10, den10, scale. destruct (0 <=? k) eqn:E; cbn [fst snd]; split.
  - pose proof (p10 k ltac:(lia)). assert (0 < 10 ^ 307) by (vm_compute; reflexivity). set (u := 10 ^ 307) in *. clearbody u. nia.
  - assert (10 ^ p * 10 ^ k <= 10 ^ 308) by (rewrite <- Z.pow_add_r by lia; apply Z.pow_le_mono_r; lia). pose proof (p10 k ltac:(lia)).
    set (u := 10 ^ 308) in *. clearbody u. nia.
  - assert (10 ^ (- k) <= 10 ^ 307) by (apply Z.pow_le_mono_r; lia). set (u := 10 ^ 307) in *. clearbody u. nia.
  - assert (10 ^ p <= 10 ^ 308 * 10 ^ (- k)) by (rewrite <- Z.pow_add_r by lia; apply Z.pow_le_mono_r; lia).
    set (u := 10 ^ 308) in *. clearbody u. nia.
Qed.
(** Numbers that are printed: the digits, the text, the number read. *)
Record printed (p : Z) (x : dbl) (t : number_text) : Prop := {
  pr_text : print_g p x = M_Decimal.sign (negative x) (text_of (chr 101) t);
  pr_ok : nt_ok t;
  pr_len : forall c, (length (text_of c t) <= 60)%nat;
  pr_scan : exists m e, scan (text_of (chr 69) t) = S754_finite false m e /\ normal m e /\ stored p x = S754_finite (negative x) m e
}.
Lemma finite_printed p s m e : 1 <= p <= 15 -> Z.pos m < 2 ^ 53 -> -1074 <= e <= 971 ->
  frac_d e <= frac_n m e * 10 ^ 307 -> frac_n m e < frac_d e * 10 ^ 307 ->
  exists t, printed p (S754_finite s m e) t.
Proof.
  intros P M E LO UP. destruct (print_scan p m e P M E LO UP) as (r & y & t & DG & R & Y & PR & OK & MP & SM & LEN & SC).
  exists t. constructor; try assumption.
  - cbn [negative]. rewrite <- PR, !print_finite. reflexivity.
  - rewrite (SC (chr 69) ltac:(right; reflexivity)). pose proof (p10 (p - 1) ltac:(lia)).
    destruct (decimal_finite r (y - (p - 1)) ltac:(lia) (digits_ranged p r y P R Y)) as (mx & ex & D & NO & _).
    exists mx, ex. split; [exact D|]. split; [exact NO|]. unfold stored. rewrite DG, D. apply sgn_finite.
Qed.
Lemma stored_decimal p s m k : 1 <= p <= 15 -> 0 < m < 10 ^ p -> -306 <= k <= 306 - p -> stored p (sgn s (d_decimal m k)) = sgn s (d_decimal m k).
Proof.
  intros P M K. pose proof (small_ranged p m k ltac:(lia) M K) as RG. destruct (decimal_finite m k ltac:(lia) RG) as (mx & ex & D & NO & _).
  destruct (decimal_digits p m k mx ex P ltac:(lia) ltac:(lia) RG D) as (r & y & R & S & DG).
  rewrite D, sgn_finite. unfold stored. rewrite DG. f_equal. rewrite <- sgn_finite, <- D. f_equal. symmetry.
  pose proof (p10 (p - 1) ltac:(lia)). apply decimal_same; [lia|lia|apply same10_sym; exact S|exact RG].
Qed.

(** * Ranges *)
Lemma valid_bounds s m e : valid_binary prec emax (S754_finite s m e) = true ->
  Z.pos m < 2 ^ 53 /\ -1074 <= e <= 971 /\ (2 ^ 52 <= Z.pos m \/ e = -1074).
Proof.
  cbn [valid_binary]. unfold bounded, canonical_mantissa. intros H. apply andb_true_iff in H as [H1 H2].
  apply Zeq_bool_eq in H1. rewrite fexp_fx in H1. apply Zle_bool_imp_le in H2. change (1024 - 53) with 971 in H2. destruct (digits2_bounds m) as [B1 B2].
  unfold fx in H1. set (g := Z.pos (digits2_pos m)) in *. assert (0 < g) by (unfold g; lia). clearbody g.
  assert (G : g <= 53) by lia. split; [|split; [lia|]].
  - assert (2 ^ g <= 2 ^ 53) by (apply Z.pow_le_mono_r; lia). lia.
  - destruct (Z.eq_dec g 53) as [-> |N]; [left; exact B1|right; lia].
Qed.
Lemma common_normal s m e : common (S754_finite s m e) -> normal m e.
Proof.
  intros (_ & V & LO & _). destruct (valid_bounds s m e V) as (M & E & [L|L]); [split; [split; assumption|assumption]|].
  split; [split; [|exact M]|exact E]. change (frac_d e <= frac_n m e * 10 ^ 306) in LO. subst e. unfold frac_d, frac_n in LO. change (0 <=? -1074) with false in LO. cbv iota in LO.
  assert (X : 2 ^ 52 * 10 ^ 306 < 2 ^ 1074) by (vm_compute; reflexivity). change (- -1074) with 1074 in LO.
  set (u := 10 ^ 306) in *. set (w := 2 ^ 1074) in *. assert (0 < u) by (vm_compute; reflexivity). set (b := 2 ^ 52) in *. clearbody u w b. nia.
Qed.
Lemma common_bounds s m e : common (S754_finite s m e) -> frac_d e <= frac_n m e * 10 ^ 307 /\ frac_n m e < frac_d e * 10 ^ 307.
Proof.
  intros C. pose proof (common_normal s m e C) as [[_ M] E]. destruct C as (_ & _ & LO & UP & _). split; [|exact UP].
  change (frac_d e <= frac_n m e * 10 ^ 306) in LO. destruct (frac_spec m e M E) as (A & B & _).
  assert (X : 10 ^ 306 <= 10 ^ 307) by (vm_compute; discriminate). set (u := 10 ^ 307) in *. set (w := 10 ^ 306) in *. clearbody u w. nia.
Qed.
Lemma common_printed p x : 1 <= p <= 15 -> common x -> exists t, printed p x t.
Proof.
  intros P C. destruct x as [s|s| |s m e]; try (exfalso; exact (proj1 C)).
  pose proof (common_normal s m e C) as [[_ M] E]. destruct (common_bounds s m e C) as [LO UP]. apply finite_printed; assumption.
Qed.
Lemma num_negative m e : normal m e -> frac_n m e < frac_d e * 10 ^ 37 -> d_num (S754_finite true m e) = true.
Proof.
  intros [[M1 M2] E] U. unfold d_num. assert (K : d_ofZ (- d_pow10 37) = S754_finite true 8470329472543003 70) by (vm_compute; reflexivity). rewrite K.
  unfold SFleb, SFcompare. destruct (70 ?= e) eqn:C.
  - apply Z.compare_eq in C. subst e. unfold frac_n, frac_d in U. change (0 <=? 70) with true in U. cbv iota in U.
    rewrite <- Pos.compare_antisym || idtac. assert (L : Z.pos m <= 8470329472543003).
    { assert (X : 10 ^ 37 < 8470329472543004 * 2 ^ 70) by (vm_compute; reflexivity). set (u := 10 ^ 37) in *. set (b := 2 ^ 70) in *. assert (0 < b) by (vm_compute; reflexivity). clearbody u b. nia. }
    destruct (m ?= 8470329472543003)%positive eqn:Q; try reflexivity. apply Pos.compare_gt_iff in Q. lia.
  - exfalso. rewrite Z.compare_lt_iff in C. unfold frac_n, frac_d in U. assert (Q : (0 <=? e) = true) by (apply Z.leb_le; clear -C; lia). rewrite Q in U. clear K Q.
    assert (2 ^ 71 <= 2 ^ e) by (apply Z.pow_le_mono_r; lia). assert (X : 10 ^ 37 < 2 ^ 52 * 2 ^ 71) by (vm_compute; reflexivity).
    set (u := 10 ^ 37) in *. set (b := 2 ^ 71) in *. set (c := 2 ^ 52) in *. set (w := 2 ^ e) in *. assert (0 < b) by (vm_compute; reflexivity). clearbody u b c w. nia.
  - reflexivity.
Qed.
Lemma num_positive m e : d_num (S754_finite false m e) = true.
Proof. reflexivity. Qed.
Lemma common_num x : common x -> d_num x = true.
Proof.
  intros C. destruct x as [s|s| |s m e]; try (exfalso; exact (proj1 C)). destruct s; [|apply num_positive].
  pose proof (common_normal true m e C) as NO. apply num_negative; [exact NO|]. destruct NO as [[_ M] E]. destruct (frac_spec m e M E) as (A & B & _).
  destruct C as (_ & _ & _ & _ & U). specialize (U eq_refl). change (frac_n m e < frac_d e * 10 ^ 36) in U.
  change (10 ^ 36) with 1000000000000000000000000000000000000 in U. change (10 ^ 37) with 10000000000000000000000000000000000000. lia.
Qed.

(** * Accuracy *)
Lemma scale_cross n d z r : 0 <= r ->
  fst (scale n d z) * d * num10 r (- z) = snd (scale n d z) * r * n * den10 r (- z).
Proof.
  intros R. unfold num10, den10, scale. destruct (0 <=? z) eqn:A; destruct (0 <=? - z) eqn:B; cbn [fst snd]; [| | |exfalso; lia].
  - replace z with 0 by lia. change (10 ^ 0) with 1. change (10 ^ (- 0)) with 1. ring.
  - replace (- - z) with z by lia. ring.
  - ring.
Qed.
(** The digits are those of the number. *)
Lemma digits_near p n d r y : 1 <= p -> 0 < n -> 0 < d -> n < d * 10 ^ 399 -> d <= n * 10 ^ 399 -> digits_of p n d = (r, y) ->
  let N := num10 r (y - (p - 1)) in let D := den10 r (y - (p - 1)) in
  - (N * d) <= 2 * 10 ^ (p - 1) * (n * D - N * d) <= N * d.
Proof.
  intros P HN HD U L DG N D. destruct (exp10_spec n d HN HD U L) as [HE _].
  pose proof (digits_of_spec p n d (exp10 n d) ltac:(lia) HN HD HE eq_refl) as DS. rewrite DG in DS. destruct DS as (R & _ & H).
  pose proof (p10 (p - 1) ltac:(lia)) as T. pose proof (scale_cross n d (p - 1 - y) r ltac:(lia)) as X.
  replace (- (p - 1 - y)) with (y - (p - 1)) in X by lia. fold N in X. fold D in X.
  pose proof (scale_pos n d (p - 1 - y) HN HD) as [SA SB].
  destruct (scale n d (p - 1 - y)) as [a b]. cbn [fst snd] in *.
  assert (NP : 0 < N) by (apply num10_pos; lia). assert (DP : 0 < D) by (apply den10_pos; lia). clearbody N D.
  assert (E : (n * D - N * d) * (b * r) = d * N * (a - b * r)) by (replace ((n * D - N * d) * (b * r)) with (b * r * n * D - N * d * (b * r)) by ring; rewrite <- X; ring).
  set (w := n * D - N * d) in *. set (v := N * d) in *. assert (VP : 0 < v) by (unfold v; nia). replace (d * N) with v in E by (unfold v; ring). clearbody w v.
  assert (BR : 0 < b * r) by nia.
  assert (E1 : 2 * w * r <= v). { apply (Z.mul_le_mono_pos_r _ _ b SB). replace (2 * w * r * b) with (2 * (w * (b * r))) by ring. rewrite E. nia. }
  assert (E2 : - v <= 2 * w * r). { apply (Z.mul_le_mono_pos_r _ _ b SB). replace (2 * w * r * b) with (2 * (w * (b * r))) by ring. rewrite E. nia. }
  destruct (Z.le_gt_cases 0 w); nia.
Qed.
(** What is read for a number: finite, near to the number, printed in the same way. *)
Lemma stored_spec p s m e : 2 <= p <= 15 -> common (S754_finite s m e) ->
  exists m' e', stored p (S754_finite s m e) = S754_finite s m' e' /\ normal m' e' /\
    10 ^ (p - 1) * Z.abs (frac_n m' e' * frac_d e - frac_n m e * frac_d e') <= frac_n m e * frac_d e' /\
    digits_of p (frac_n m' e') (frac_d e') = digits_of p (frac_n m e) (frac_d e).
Proof.
  intros P C. pose proof (common_normal s m e C) as [[_ M] E]. destruct (common_bounds s m e C) as [LO UP].
  destruct (print_scan p m e ltac:(lia) M E LO UP) as (r & y & t & DG & R & Y & _).
  destruct (frac_spec m e M E) as (A & B & _ & U1 & U2). pose proof (p10 (p - 1) ltac:(lia)) as T.
  pose proof (digits_ranged p r y ltac:(lia) R Y) as RG.
  destruct (decimal_finite r (y - (p - 1)) ltac:(lia) RG) as (mx & ex & D & NO & ER).
  exists mx, ex. split; [unfold stored; rewrite DG, D; apply sgn_finite|]. split; [exact NO|]. split.
  - pose proof (digits_near p _ _ r y ltac:(lia) A B U1 U2 DG) as NR. cbn zeta in NR, ER.
    pose proof (num10_pos r (y - (p - 1)) ltac:(lia)) as HN. pose proof (den10_pos r (y - (p - 1)) ltac:(lia)) as HD.
    destruct NO as [[_ NM] NE]. destruct (frac_spec mx ex NM NE) as (A' & B' & _).
    set (N := num10 r (y - (p - 1))) in *. set (Q := den10 r (y - (p - 1))) in *.
    set (n := frac_n m e) in *. set (d := frac_d e) in *. set (n' := frac_n mx ex) in *. set (d' := frac_d ex) in *.
    assert (T1 : 10 <= 10 ^ (p - 1)) by (change 10 with (10 ^ 1) at 1; apply Z.pow_le_mono_r; lia).
    assert (T2 : 10 ^ (p - 1) <= 100000000000000) by (change 100000000000000 with (10 ^ 14); apply Z.pow_le_mono_r; lia).
    set (P10 := 10 ^ (p - 1)) in *. change (2 ^ 53) with 9007199254740992 in *.
    clear - NR ER HN HD A B A' B' T1 T2. clearbody N Q n d n' d' P10.
    (* all the fractions over the common denominator *)
    set (X := n * Q - N * d) in *. set (Z0 := n' * Q - N * d') in *.
    assert (EQ : Q * (n' * d - n * d') = d * Z0 - d' * X) by (unfold X, Z0; ring).
    assert (EN : Q * (n * d') = d' * (N * d + X)) by (unfold X; ring).
    set (V := N * d * d'). assert (V0 : 0 < V) by (unfold V; assert (0 < N * d) by nia; nia).
    assert (Z1 : - V <= 9007199254740992 * (d * Z0) <= V) by (unfold V; split; nia).
    assert (X1 : - V <= 2 * P10 * (d' * X) <= V) by (unfold V; split; nia).
    assert (EV : Q * (n * d') = V + d' * X) by (rewrite EN; unfold V; ring).
    set (a := d * Z0) in *. set (b := d' * X) in *. set (w := n' * d - n * d') in *. set (g := n * d') in *.
    clearbody X Z0 V a b w g. clear N n d n' d' HN A B A' B' NR ER EN.
    (* 2^53 |a| <= V, 2 P |b| <= V, Q w = a - b, Q g = V + b *)
    assert (B1 : 20 * b <= V) by nia. assert (B2 : - V <= 20 * b) by nia.
    assert (A1 : 90 * (P10 * a) <= V). { destruct (Z.le_gt_cases a 0); [nia|]. assert (P10 * a <= 100000000000000 * a) by nia. lia. }
    assert (A2 : - V <= 90 * (P10 * a)). { destruct (Z.le_gt_cases 0 a); [nia|]. assert (100000000000000 * a <= P10 * a) by nia. lia. }
    assert (Q * (P10 * w) = P10 * a - P10 * b) by (replace (Q * (P10 * w)) with (P10 * (Q * w)) by ring; rewrite EQ; ring).
    assert (Q * (P10 * w) <= Q * g) by lia. assert (- (Q * g) <= Q * (P10 * w)) by lia.
    assert (P10 * w <= g) by nia. assert (- g <= P10 * w) by nia. destruct (Z.abs_spec w) as [[_ ->]|[_ ->]]; lia.
  - assert (U : r < 10 ^ p) by lia.
    destruct (decimal_digits p r (y - (p - 1)) mx ex ltac:(lia) ltac:(lia) U RG D) as (r' & y' & R' & S & DG').
    destruct (same10_unique p r' y' r y ltac:(lia) R' R S) as [-> ->]. rewrite DG, DG'. reflexivity.
Qed.
Lemma stored_common p x : 2 <= p <= 15 -> common x -> d_num (stored p x) = true /\ close p x (stored p x) /\ print_g p (stored p x) = print_g p x.
Proof.
  intros P C. destruct x as [s|s| |s m e]; try (exfalso; exact (proj1 C)).
  destruct (stored_spec p s m e P C) as (m' & e' & E & NO & CL & DG). rewrite E. split; [|split].
  - destruct s; [|apply num_positive]. apply num_negative; [exact NO|]. destruct NO as [[_ NM] NE]. destruct (frac_spec m' e' NM NE) as (A' & B' & _).
    pose proof (common_normal true m e C) as [[_ M] E0]. destruct (frac_spec m e M E0) as (A & B & _).
    destruct C as (_ & _ & _ & _ & U). specialize (U eq_refl). change (frac_n m e < frac_d e * 10 ^ 36) in U.
    assert (T1 : 10 <= 10 ^ (p - 1)) by (change 10 with (10 ^ 1) at 1; apply Z.pow_le_mono_r; lia).
    change (10 ^ 37) with (10 * 10 ^ 36). set (u := 10 ^ 36) in *. assert (0 < u) by (vm_compute; reflexivity). set (P10 := 10 ^ (p - 1)) in *.
    set (n := frac_n m e) in *. set (d := frac_d e) in *. set (n' := frac_n m' e') in *. set (d' := frac_d e') in *. clear - CL U A B A' B' T1 H. clearbody u P10 n d n' d'.
    assert (Z.abs (n' * d - n * d') <= n * d') by nia. assert (n' * d <= 2 * (n * d')) by lia.
    assert (n * d' < d * u * d') by nia. assert (n' * d < 2 * (d * u * d')) by lia. assert (0 < d' * u) by nia.
    apply (Z.mul_lt_mono_pos_r d _ _ B). nia.
  - split; [reflexivity|]. exact CL.
  - rewrite !print_finite. unfold g_text. rewrite DG. reflexivity.
Qed.
(** Decimal numbers *)
Lemma decimal_common p x : 2 <= p <= 15 -> decimal p x -> exists m e, x = S754_finite false m e /\ normal m e /\
  frac_d e <= frac_n m e * 10 ^ 307 /\ frac_n m e < frac_d e * 10 ^ 307.
Proof.
  intros P (m & k & M & K & ->). pose proof (small_ranged p m k ltac:(lia) M K) as RG.
  destruct (decimal_finite m k ltac:(lia) RG) as (mx & ex & D & NO & ER). exists mx, ex. split; [exact D|]. split; [exact NO|].
  destruct NO as [[_ NM] NE]. destruct (frac_spec mx ex NM NE) as (A & B & _). cbn zeta in ER.
  pose proof (num10_pos m k ltac:(lia)) as HN. pose proof (den10_pos m k ltac:(lia)) as HD.
  assert (L : den10 m k <= num10 m k * 10 ^ 306 /\ num10 m k <= den10 m k * 10 ^ 306).
  { unfold num10, den10, scale. destruct (0 <=? k) eqn:E; cbn [fst snd]; split.
    - pose proof (p10 k ltac:(lia)). assert (0 < 10 ^ 306) by (vm_compute; reflexivity). set (u := 10 ^ 306) in *. clearbody u. nia.
    - assert (10 ^ p * 10 ^ k <= 10 ^ 306) by (rewrite <- Z.pow_add_r by lia; apply Z.pow_le_mono_r; lia). pose proof (p10 k ltac:(lia)).
      set (u := 10 ^ 306) in *. clearbody u. nia.
    - assert (10 ^ (- k) <= 10 ^ 306) by (apply Z.pow_le_mono_r; lia). set (u := 10 ^ 306) in *. clearbody u. nia.
    - assert (10 ^ p <= 10 ^ 306 * 10 ^ (- k)) by (rewrite <- Z.pow_add_r by lia; apply Z.pow_le_mono_r; lia).
      set (u := 10 ^ 306) in *. clearbody u. nia. }
  replace (10 ^ 307) with (10 * 10 ^ 306) by (vm_compute; reflexivity). set (u := 10 ^ 306) in *. assert (0 < u) by (vm_compute; reflexivity).
  set (N := num10 m k) in *. set (Q := den10 m k) in *. set (n := frac_n mx ex) in *. set (d := frac_d ex) in *.
  change (2 ^ 53) with 9007199254740992 in *. clear - ER HN HD A B L H. clearbody u N Q n d. destruct L as [L1 L2].
  assert (n * Q <= 2 * (N * d)) by nia. assert (N * d <= 2 * (n * Q)) by nia. split.
  - apply (Z.mul_le_mono_pos_r _ _ Q HD). assert (d * Q <= N * u * d) by nia. assert (N * d * u <= 2 * (n * Q) * u) by nia. nia.
  - apply (Z.mul_lt_mono_pos_r Q _ _ HD). assert (N * d <= Q * u * d) by nia. assert (0 < Q * u * d) by nia. nia.
Qed.
Lemma decimal_printed p s x : 2 <= p <= 15 -> decimal p x -> exists t, printed p (sgn s x) t /\ stored p (sgn s x) = sgn s x.
Proof.
  intros P H. destruct (decimal_common p x P H) as (m & e & E & [[N1 N2] N3] & LO & UP). destruct H as (a & k & M & K & D).
  destruct (finite_printed p s m e ltac:(lia) N2 N3 LO UP) as (t & PR). exists t.
  split; [rewrite E, sgn_finite; exact PR|rewrite D; apply stored_decimal; assumption || lia].
Qed.
