(** The Hodrick-Prescott filter. *)
From Coq Require Import ZArith List Bool Lia Reals Lra Field ZifyBool QArith Qcanon.
From Verif Require Import M_Base M_Time M_Exec M_Exact M_Real M_Matrix M_Hodrick S_Matrix S_Hodrick L_Matrix L_Estim2 L_Estim3 L_Hodrick L_Hodrick2 L_Hodrick3 L_Hodrick4.
Import ListNotations.
Open Scope R_scope.

(** * C90: the trend *)

(** In level: for a lambda that is 0 or at least 2/10^25, the series returned is the only minimum of the sum of the squares of the deviations
    plus lambda times the sum of the squares of the second differences. *)
Theorem C90_trend_partial : forall (y : list R) lambda, (4 <= length y)%nat -> (lambda = 0 \/ 2 / IZR (10 ^ 25) <= lambda) ->
  exists g, HP_calc reals y lambda true = (0%Z, g) /\ trend lambda y g.
Proof.
  intros y l N L. destruct (calc_level y l N L) as (g & E & S). exists g. split; [exact E|]. apply (solution_trend (length y) l (allowed_eps l L) N y g eq_refl S).
Qed.
(** In logarithms: the series returned is positive and its logarithm is the trend of the logarithm of the series. *)
Theorem C90_log_trend_partial : forall (y : list R) lambda, (4 <= length y)%nat -> (lambda = 0 \/ 2 / IZR (10 ^ 25) <= lambda) -> (forall x, In x y -> 0 < x) ->
  exists g, HP_calc reals y lambda false = (0%Z, g) /\ (forall x, In x g -> 0 < x) /\ trend lambda (map ln y) (map ln g).
Proof.
  intros y l N L P. destruct (calc_logs y l N L P) as (g & E & S). exists (map Rtrigo_def.exp g). split; [exact E|]. split.
  - intros x Hx. apply in_map_iff in Hx. destruct Hx as (z & <- & _). apply exp_pos.
  - rewrite map_map. rewrite (map_ext (fun z => ln (Rtrigo_def.exp z)) (fun z => z)) by apply ln_exp. rewrite map_id.
    apply (solution_trend (length y) l (allowed_eps l L) N (map ln y) g (map_length _ _) S).
Qed.
(** The filter is refused for less than four values, and in logarithms for a value that is not positive; then all the values are NA. *)
Theorem C90_refused : forall (y : list R) lambda std,
  (fst (HP_calc reals y lambda std) <> 0%Z <-> (length y < 4)%nat \/ (std = false /\ exists x, In x y /\ x <= 0))
  /\ (fst (HP_calc reals y lambda std) <> 0%Z -> HP_calc reals y lambda std = ((-1)%Z, repeat r_na (length y))).
Proof.
  intros y l std. unfold HP_calc. change (F reals) with R. change (ofZ reals 0) with 0. change (na reals) with r_na. destruct (Nat.ltb_spec (length y) 4) as [C|C].
  - split; [|reflexivity]. split; [intros _; left; exact C|intros _; discriminate].
  - destruct std; unfold negb, andb.
    + split; [|intros K; contradiction]. split; [intros K; contradiction|]. intros [K|(K & _)]; [lia|discriminate].
    + destruct (existsb (fun x : R => le_f reals x 0) y) eqn:E.
      * split; [|reflexivity]. split; [intros _; right|intros _; discriminate]. apply existsb_exists in E. destruct E as (x & Hx & K). split; [reflexivity|]. exists x. split; [exact Hx|].
        destruct (Rle_lt_dec x 0) as [Q|Q]; [exact Q|]. apply le_positive in Q. congruence.
      * split; [|intros K; contradiction]. split; [intros K; contradiction|]. intros [K|(_ & x & Hx & K)]; [lia|exfalso].
        assert (T : existsb (fun x : R => le_f reals x 0) y = true); [|congruence]. apply existsb_exists. exists x. split; [exact Hx|].
        destruct (le_f reals x 0) eqn:Q; [reflexivity|]. apply le_positive in Q. lra.
Qed.
(** A straight line is its own trend. *)
Theorem C90_straight : forall a b n lambda, (4 <= n)%nat -> (lambda = 0 \/ 2 / IZR (10 ^ 25) <= lambda) ->
  let y := map (fun k => a + b * INR k) (seq 0 n) in HP_calc reals y lambda true = (0%Z, y).
Proof.
  intros a b n l N L y. assert (Ly : length y = n) by (unfold y; rewrite map_length, seq_length; reflexivity).
  destruct (C90_trend_partial y l ltac:(lia) L) as (g & E & T). rewrite E. f_equal. apply (trend_unique l y); [exact T|].
  apply straight_trend; [apply l_pos; exact (allowed_eps l L)|]. intros k Hk. rewrite Ly in Hk. unfold second, at_, y. rewrite !nth_seq_map by lia.
  rewrite !plus_INR. change (INR 2) with 2. change (INR 1) with 1. ring.
Qed.
(** The trend has the sum of the series, and the sum weighted by the dates. *)
Theorem C90_sums : forall (y : list R) lambda g, (4 <= length y)%nat -> (lambda = 0 \/ 2 / IZR (10 ^ 25) <= lambda) -> HP_calc reals y lambda true = (0%Z, g) ->
  sum_to (length y) (at_ g) = sum_to (length y) (at_ y)
  /\ sum_to (length y) (fun k => INR k * at_ g k) = sum_to (length y) (fun k => INR k * at_ y k).
Proof.
  intros y l g N L E. destruct (calc_level y l N L) as (g' & E' & S). rewrite E in E'. injection E' as <-. rewrite !sum_to_eq. split.
  - pose proof (straight_tested (length y) l N y g (fun _ => 1) ltac:(intros; unfold second; ring) S) as K.
    rewrite (sum_ext _ (at_ g) (fun i => 1 * fn g i)), (sum_ext _ (at_ y) (fun i => 1 * fn y i)); [exact K| |]; intros; unfold at_, fn; ring.
  - apply (straight_tested (length y) l N y g INR); [|exact S]. intros k. unfold second. rewrite !plus_INR. change (INR 2) with 2. change (INR 1) with 1. ring.
Qed.
(** The trend of a combination of two series is the combination of their trends. *)
Theorem C90_combination : forall (y z : list R) a b lambda g h, (4 <= length y)%nat -> length z = length y -> (lambda = 0 \/ 2 / IZR (10 ^ 25) <= lambda) ->
  HP_calc reals y lambda true = (0%Z, g) -> HP_calc reals z lambda true = (0%Z, h) ->
  HP_calc reals (combined a b y z) lambda true = (0%Z, combined a b g h).
Proof.
  intros y z a b l g h N Lz L Ey Ez. destruct (calc_level y l N L) as (g' & E & Sg). rewrite Ey in E. injection E as <-.
  destruct (calc_level z l ltac:(lia) L) as (h' & E & Sh). rewrite Ez in E. injection E as <-. rewrite Lz in Sh.
  assert (Lc : length (combined a b y z) = length y) by (unfold combined; rewrite map_length, seq_length; reflexivity).
  destruct (calc_level (combined a b y z) l ltac:(lia) L) as (w & E & Sw). rewrite E. f_equal. rewrite Lc in Sw.
  apply (solution_unique (length y) l (allowed_eps l L) N (combined a b y z)); [exact Lc|exact Sw|].
  apply combined_solution; try assumption; reflexivity.
Qed.
Lemma ones_solution n l : (4 <= n)%nat -> (l = 0 \/ 2 / IZR (10 ^ 25) <= l) -> solution reals n (HP_matrix reals n l) (repeat 1 n) (repeat 1 n).
Proof.
  intros N L. pose proof (C90_straight 1 0 n l N L) as E. cbv zeta in E.
  assert (Eo : forall q, map (fun k => 1 + 0 * INR k) (seq q n) = repeat 1 n).
  { clear. induction n as [|m IH]; intros q; [reflexivity|]. cbn [seq map repeat]. rewrite IH. f_equal. ring. }
  rewrite Eo in E. destruct (calc_level (repeat 1 n) l) as (w & Ew & Sw); [rewrite repeat_length; exact N|exact L|].
  rewrite E in Ew. injection Ew as <-. rewrite repeat_length in Sw. exact Sw.
Qed.
Lemma nth_repeat_lt {X} (x d : X) : forall n k, (k < n)%nat -> nth k (repeat x n) d = x.
Proof. induction n as [|n IH]; intros k Hk; [lia|]. destruct k; [reflexivity|]. cbn. apply IH. lia. Qed.
(** In logarithms, the trend of a multiple is the multiple of the trend. *)
Theorem C90_scale : forall (y : list R) c lambda g, (4 <= length y)%nat -> (lambda = 0 \/ 2 / IZR (10 ^ 25) <= lambda) -> (forall x, In x y -> 0 < x) -> 0 < c ->
  HP_calc reals y lambda false = (0%Z, g) -> HP_calc reals (map (Rmult c) y) lambda false = (0%Z, map (Rmult c) g).
Proof.
  intros y c l g N L P Pc E. destruct (calc_logs y l N L P) as (u & E' & S). rewrite E in E'. injection E' as ->.
  assert (Lm : length (map (Rmult c) y) = length y) by apply map_length.
  destruct (calc_logs (map (Rmult c) y) l ltac:(lia) L) as (v & Ev & Sv).
  { intros x Hx. apply in_map_iff in Hx. destruct Hx as (z & <- & Hz). apply Rmult_lt_0_compat; [exact Pc|exact (P z Hz)]. }
  rewrite Lm in Sv. rewrite Ev. f_equal. rewrite map_map.
  set (one := repeat 1 (length y)). assert (So : solution reals (length y) (HP_matrix reals (length y) l) one one).
  { exact (ones_solution (length y) l N L). }
  assert (Lu : length u = length y) by apply S.
  assert (Ec : v = combined 1 (ln c) u one).
  { apply (solution_unique (length y) l (allowed_eps l L) N (map ln (map (Rmult c) y))); [rewrite !map_length; reflexivity|exact Sv|].
    assert (Eq : map ln (map (Rmult c) y) = combined 1 (ln c) (map ln y) one).
    { apply (list_ext (length y) N); [exact (eq_trans (map_length _ _) (map_length _ _))|unfold combined; rewrite map_length, seq_length; exact (map_length _ _)|]. intros k Hk.
      rewrite combined_at by (rewrite map_length; exact Hk). rewrite map_map. unfold fn, one. rewrite nth_repeat_lt by exact Hk.
      rewrite (nth_indep _ 0 (ln (c * 0))) by (rewrite map_length; exact Hk). rewrite (map_nth (fun x => ln (c * x)) y 0 k).
      rewrite (nth_indep (map ln y) 0 (ln 0)) by (rewrite map_length; exact Hk). rewrite (map_nth ln y 0 k). rewrite ln_mult; [ring|exact Pc|apply P; apply nth_In; exact Hk]. }
    rewrite Eq. apply combined_solution; try assumption; [rewrite map_length; reflexivity|unfold one; apply repeat_length]. }
  rewrite Ec. apply nth_ext with (d := 0) (d' := 0); [unfold combined; rewrite !map_length, seq_length; reflexivity|]. intros k Hk. unfold combined in Hk. rewrite !map_length, seq_length in Hk.
  rewrite (nth_indep _ 0 (Rtrigo_def.exp 0)) by (unfold combined; rewrite !map_length, seq_length; exact Hk). rewrite (map_nth Rtrigo_def.exp _ 0 k).
  rewrite (nth_indep (map (fun x => c * Rtrigo_def.exp x) u) 0 (c * Rtrigo_def.exp 0)) by (rewrite map_length; exact Hk). rewrite (map_nth (fun x => c * Rtrigo_def.exp x) u 0 k).
  change (nth k (combined 1 (ln c) u one) 0) with (fn (combined 1 (ln c) u one) k). rewrite combined_at by exact Hk. unfold fn, one. rewrite nth_repeat_lt by lia.
  replace (1 * nth k u 0 + ln c * 1) with (ln c + nth k u 0) by ring. rewrite exp_plus, exp_ln by exact Pc. reflexivity.
Qed.

(** A series with missing values: the values before the first number and from the next missing value on are NA; between them the filter of
    these values alone. *)
Theorem C90_missing : forall A (before y after : list (F A)) lambda std,
  (forall v, In v before -> num A v = false) -> y <> [] -> (forall v, In v y -> num A v = true) -> (after = [] \/ exists v r, after = v :: r /\ num A v = false) ->
  HP_series A (before ++ y ++ after) lambda std = repeat (na A) (length before) ++ snd (HP_calc A y lambda std) ++ repeat (na A) (length after).
Proof. exact series_parts. Qed.
(** In a formula: hpstd(lambda, x) and hp(lambda, x) over the periods from .. to. *)
Lemma window_values (s2 : Z -> res R) : forall (f : list R) from, (forall k, (k < length f)%nat -> s2 (from + Z.of_nat k)%Z = Ok (at_ f k)) ->
  mapM s2 (seqZ from (length f)) = Ok f.
Proof.
  induction f as [|v f IH]; intros from E; [reflexivity|]. cbn [length seqZ mapM]. pose proof (E 0%nat ltac:(cbn; lia)) as E0. change (Z.of_nat 0) with 0%Z in E0. rewrite Z.add_0_r in E0. rewrite E0. cbn [rbind].
  rewrite IH; [reflexivity|]. intros k Hk. replace (from + 1 + Z.of_nat k)%Z with (from + Z.of_nat (S k))%Z by lia. rewrite E by (cbn; lia). reflexivity.
Qed.
Theorem C90_formula : forall (s1 s2 : Z -> res R) from to t lambda (before y after : list R), let f := before ++ y ++ after in
  s1 t = Ok lambda -> (lambda = 0 \/ 2 / IZR (10 ^ 25) <= lambda) -> (from <= t <= to)%Z -> (-2147483648 <= from)%Z -> (to + 1 <= 2147483647)%Z -> (to - from + 1 <= 2147483647)%Z ->
  length f = Z.to_nat (to - from + 1) -> (forall k, (k < length f)%nat -> s2 (from + Z.of_nat k)%Z = Ok (at_ f k)) ->
  (5 <= length y)%nat -> (forall v, In v before -> r_num v = false) -> (forall v, In v y -> r_num v = true) -> (after = [] \/ exists v r, after = v :: r /\ r_num v = false) ->
  (exists g, trend lambda y g /\ calc_hp (with_filter reals) true s1 s2 from to t = Ok (nth (Z.to_nat (t - from)) (repeat r_na (length before) ++ g ++ repeat r_na (length after)) r_na))
  /\ ((forall x, In x y -> 0 < x) -> exists g, trend lambda (map ln y) (map ln g) /\
      calc_hp (with_filter reals) false s1 s2 from to t = Ok (nth (Z.to_nat (t - from)) (repeat r_na (length before) ++ g ++ repeat r_na (length after)) r_na)).
Proof.
  intros s1 s2 from to t l before y after f E1 L Ht Hf Hto Hnb Lf E2 N Pb Py Pa.
  assert (Ny : y <> []) by (intros ->; cbn in N; lia).
  assert (G : forall std, calc_hp (with_filter reals) std s1 s2 from to t = Ok (nth (Z.to_nat (t - from)) (HP_series reals f l std) r_na)).
  { intros std. unfold calc_hp. rewrite E1. cbn [rbind]. assert (Nl : num (with_filter reals) l = true).
    { change (r_num l = true). unfold r_num. pose proof (l_pos l (allowed_eps l L)). destruct (Rle_dec (-1 * 10 ^ 37) l) as [|K]; [reflexivity|]. exfalso. apply K. assert (0 < 10 ^ 37) by (apply pow_lt; lra). lra. }
    rewrite Nl. unfold negb. replace ((t <? from)%Z || (to <? t)%Z) with false by lia. unfold i32.
    assert (I1 : ((-2147483648 <=? to - from + 1) && (to - from + 1 <=? 2147483647))%Z = true) by lia. rewrite I1. cbn [rbind].
    assert (Ln : (5 <= length f)%nat) by (unfold f; rewrite !app_length; lia). replace (to - from + 1 <? 5)%Z with false by lia.
    unfold window, i32. assert (I2 : ((-2147483648 <=? to + 1) && (to + 1 <=? 2147483647))%Z = true) by lia. rewrite I2. cbn [rbind]. assert (W : @mapM Z (F (with_filter reals)) s2 (seqZ from (Z.to_nat (to - from + 1))) = Ok f) by (rewrite <- Lf; exact (window_values s2 f from E2)). rewrite W. cbn [rbind].
    change (hp (with_filter reals)) with (hp_value reals). assert (V : hp_value reals std l f (t - from) = Some (nth (Z.to_nat (t - from)) (HP_series reals f l std) r_na)).
    { unfold hp_value. assert (T : HP_test reals f = (length before, length y)) by exact (test_parts reals before y after Pb Ny Py Pa). rewrite T. cbn [snd].
      replace (Nat.ltb (length y) 5) with false by lia. reflexivity. }
    change (F (with_filter reals)) with R. rewrite V. reflexivity. }
  split.
  - destruct (C90_trend_partial y l ltac:(lia) L) as (g & E & T). exists g. split; [exact T|]. rewrite G.
    assert (Q : HP_series reals f l true = repeat r_na (length before) ++ snd (HP_calc reals y l true) ++ repeat r_na (length after)) by exact (series_parts reals before y after l true Pb Ny Py Pa).
    rewrite Q, E. reflexivity.
  - intros P. destruct (C90_log_trend_partial y l ltac:(lia) L P) as (g & E & _ & T). exists g. split; [exact T|]. rewrite G.
    assert (Q : HP_series reals f l false = repeat r_na (length before) ++ snd (HP_calc reals y l false) ++ repeat r_na (length after)) by exact (series_parts reals before y after l false Pb Ny Py Pa).
    rewrite Q, E. reflexivity.
Qed.
Print Assumptions C90_trend_partial.
Print Assumptions C90_log_trend_partial.
Print Assumptions C90_refused.
Print Assumptions C90_straight.
Print Assumptions C90_sums.
Print Assumptions C90_combination.
Print Assumptions C90_scale.
Print Assumptions C90_missing.
Print Assumptions C90_formula.

(** Refuted: with a lambda that is positive but less than 1/10^25 the series returned is not the trend (the elements of the matrix are taken
    for zeros under the diagonal, but not above). *)
Theorem C90_every_lambda_refuted : ~ (forall (y : list R) lambda, (4 <= length y)%nat -> 0 <= lambda -> trend lambda y (snd (HP_calc reals y lambda true))).
Proof.
  intros K. set (y := [0; 0; 1; 0]). set (l := eps / 10). pose proof eps_pos as Ep. pose proof eps_small as Es. assert (Pl : 0 < l) by (unfold l; lra).
  specialize (K y l ltac:(cbn; lia) ltac:(lra)). destruct (any_solution 4 l y ltac:(lra) ltac:(lia) eq_refl) as (g & S).
  assert (T : trend l y g).
  { split; [apply S|]. intros g' Lg' Ne. set (u := fun k => fn g' k - fn g k).
    assert (Gap : criterion l y g' = criterion l y g + (SumR 4 (fun k => u k * u k) + l * SumR (4 - 2) (fun k => second u k * second u k))) by exact (criterion_gap 4 l ltac:(lia) y g g' eq_refl S).
    assert (0 <= SumR 4 (fun k => u k * u k)) by (apply sum_nonneg; intros; exact (Rle_0_sqr _)).
    assert (0 <= SumR (4 - 2) (fun k => second u k * second u k)) by (apply sum_nonneg; intros; exact (Rle_0_sqr _)).
    destruct (Rle_lt_or_eq_dec _ _ H) as [Q|Q]; [nra|exfalso]. apply Ne. apply (list_ext 4 ltac:(lia)); [exact Lg'|apply S|]. intros k Hk.
    pose proof (sum_zero_sq 4 u (eq_sym Q) k Hk) as Z. unfold u in Z. lra. }
  pose proof (trend_unique l y _ _ K T) as E. pose proof (tiny_last l y eq_refl ltac:(lra) ltac:(unfold l; lra) eq_refl) as Z. rewrite E in Z. clear E K T.
  assert (Row : forall i, (i < 4)%nat -> SumR 4 (fun j => L_Hodrick.H 4 l i j * fn g j) = fn y i).
  { intros i Hi. rewrite <- row_at by lia. destruct S as (_ & Eg). exact (Eg i Hi). }
  pose proof (Row 0%nat ltac:(lia)) as R0. pose proof (Row 1%nat ltac:(lia)) as R1. pose proof (Row 2%nat ltac:(lia)) as R2. pose proof (Row 3%nat ltac:(lia)) as R3.
  unfold L_Hodrick.H, SumR, d, I in R0, R1, R2, R3. cbn -[fn] in R0, R1, R2, R3. change (fn y 0) with 0 in R0. change (fn y 1) with 0 in R1. change (fn y 2) with 1 in R2. change (fn y 3) with 0 in R3.
  rewrite Z in * . set (a := fn g 0) in * . set (b := fn g 1) in * . set (c := fn g 2) in * .
  assert (Eb : b = 2 * c) by (apply (Rmult_eq_reg_l l); [|lra]; lra). rewrite Eb in * .
  assert (c = 0); [|nra]. assert (l * a = (1 + 3 * l) * c) by lra.
  assert (Q : ((1 + l) * (1 + 3 * l) - 3 * l * l) * c = 0) by nra. apply Rmult_integral in Q. destruct Q as [Q|Q]; [nra|exact Q].
Qed.
(** Refuted: a series of three values has a trend, but it is refused. *)
Theorem C90_three_values_refuted : ~ (forall (y g : list R) lambda, (3 <= length y)%nat -> 1 <= lambda -> trend lambda y g -> HP_calc reals y lambda true = (0%Z, g)).
Proof.
  intros K. specialize (K [1; 2; 3] [1; 2; 3] 1 ltac:(cbn; lia) ltac:(lra)). discriminate K. apply straight_trend; [lra|].
  intros k Hk. cbn in Hk. replace k with 0%nat by lia. unfold second, at_. cbn. ring.
Qed.
(** Refuted: a negative lambda for which the system has no solution; zeros are returned, as if they were the result. *)
Theorem C90_code_refuted : ~ (forall (y : list Qc) lambda, fst (HP_calc exactly y lambda true) = 0%Z ->
  solution exactly (length y) (HP_matrix exactly (length y) lambda) (snd (HP_calc exactly y lambda true)) y).
Proof.
  intros K. set (y := map q_ofZ [1; 1; 1; 1]%Z). set (l := Qcdiv (q_ofZ (-1)) (q_ofZ 2)). specialize (K y l ltac:(vm_compute; reflexivity)). destruct K as (_ & K).
  specialize (K 0%nat ltac:(cbn; lia)).
  assert (Q : Qeq (this (row_times exactly (length y) (HP_matrix exactly (length y) l) (snd (HP_calc exactly y l true)) 0)) (this (nth 0 y (q_ofZ 0)))) by (rewrite K; reflexivity).
  vm_compute in Q. discriminate Q.
Qed.
(** Refuted: the report commands WsTrend and WsTrendStd read the series whose names follow lambda (lambda is taken for the first name, and the
    last name is left out). *)
Theorem C90_names_refuted : ~ (forall (lambda : nat) names, trend_names (lambda :: names) = names).
Proof. intros K. specialize (K 0%nat [1%nat; 2%nat]). discriminate K. Qed.
Theorem C90_names : forall {X} (lambda x : X) names, trend_names (lambda :: names ++ [x]) = lambda :: names.
Proof.
  intros X l x names. unfold trend_names. cbn [length]. rewrite app_length. cbn [length]. replace (S (length names + 1) - 1)%nat with (S (length names)) by lia. cbn [firstn]. f_equal. apply firstn_len.
Qed.
Print Assumptions C90_every_lambda_refuted.
Print Assumptions C90_three_values_refuted.
Print Assumptions C90_code_refuted.
Print Assumptions C90_names_refuted.
Print Assumptions C90_names.

(** Non-vacuity: a series that is not straight, lambda = 1. *)
Example five_filtered : map this (snd (HP_calc exactly (map q_ofZ [1; 0; 2; 5; 7]%Z) (q_ofZ 1) true)) = [5 # 24; 11 # 12; 29 # 12; 55 # 12; 55 # 8]%Q.
Proof. vm_compute. reflexivity. Qed.
Example missing_filtered : map this (HP_series exactly (q_na :: map q_ofZ [1; 0; 2; 5; 7]%Z ++ [q_na; q_ofZ 3]) (q_ofZ 1) true)
  = [this q_na; 5 # 24; 11 # 12; 29 # 12; 55 # 12; 55 # 8; this q_na; this q_na]%Q.
Proof. vm_compute. reflexivity. Qed.
(** The hypotheses of C90_formula: five periods after a missing value. *)
Example formula_case : exists g, trend 1 [1; 0; 2; 5; 7] g
  /\ calc_hp (with_filter reals) true (fun _ => Ok 1) (fun j => Ok (at_ [r_na; 1; 0; 2; 5; 7] (Z.to_nat j))) 0 5 3 = Ok (at_ g 2).
Proof.
  destruct (C90_formula (fun _ => Ok 1) (fun j => Ok (at_ [r_na; 1; 0; 2; 5; 7] (Z.to_nat j))) 0 5 3 1 [r_na] [1; 0; 2; 5; 7] []) as (K & _); try reflexivity; try lia.
  - right. assert (2 <= IZR (10 ^ 25)) by (apply IZR_le; lia). apply (Rmult_le_reg_r (IZR (10 ^ 25))); [lra|]. unfold Rdiv. rewrite Rmult_assoc, Rinv_l by lra. lra.
  - intros k Hk. rewrite Z.add_0_l, Nat2Z.id. reflexivity.
  - intros v [<-|[]]. exact (num_na reals).
  - intros v Hv. unfold r_num. destruct (Rle_dec (-1 * 10 ^ 37) v) as [|Q]; [reflexivity|]. exfalso. apply Q. assert (0 < 10 ^ 37) by (apply pow_lt; lra).
    cbn in Hv. destruct Hv as [<-|[<-|[<-|[<-|[<-|[]]]]]]; lra.
  - left. reflexivity.
  - destruct K as (g & T & E). exists g. split; [exact T|]. rewrite E. f_equal. unfold at_. change (Z.to_nat (3 - 0)) with 3%nat. cbn [length repeat app nth].
    destruct T as (Lg & _). cbn in Lg. rewrite app_nil_r. apply nth_indep. lia.
Qed.
