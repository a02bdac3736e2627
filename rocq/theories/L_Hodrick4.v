(** Consequences: the code returned, straight lines, sums, combinations, missing values; a very small lambda. *)
From Coq Require Import ZArith List Bool Lia Reals Lra Field ZifyBool Psatz.
From Verif Require Import M_Base M_Exec M_Real M_Matrix M_Hodrick S_Matrix S_Hodrick L_Matrix L_Estim2 L_Estim3 L_Hodrick L_Hodrick2 L_Hodrick3 T_Matrix.
Import ListNotations.
Open Scope R_scope.

Definition allowed (l : R) : Prop := l = 0 \/ 2 / IZR (10 ^ 25) <= l.
Lemma allowed_eps l : allowed l -> l = 0 \/ 2 * eps <= l.
Proof. intros [E|E]; [left; exact E|right]. unfold eps. replace (2 * (1 / IZR (10 ^ 25))) with (2 / IZR (10 ^ 25)); [exact E|]. unfold Rdiv. ring. Qed.

Lemma calc_level (y : list R) l : (4 <= length y)%nat -> allowed l ->
  exists g, HP_calc reals y l true = (0%Z, g) /\ solution reals (length y) (HP_matrix reals (length y) l) g y.
Proof.
  intros N L. apply allowed_eps in L. destruct (solved (length y) l L N y eq_refl) as (g & E & S). exists g. split; [|exact S].
  unfold HP_calc. change (F reals) with R in * . replace (Nat.ltb (length y) 4) with false by lia. unfold negb, andb. rewrite E. reflexivity.
Qed.
Lemma le_positive (x : R) : le_f reals x 0 = false <-> 0 < x.
Proof.
  split; [apply r_le_false|]. intros P. unfold le_f. cbn. apply orb_false_iff. split; [apply r_lt_f; lra|]. unfold r_eq. destruct (Req_EM_T x 0); [lra|reflexivity].
Qed.
Lemma none_negative (y : list R) : (forall x, In x y -> 0 < x) -> existsb (fun x : R => le_f reals x 0) y = false.
Proof.
  intros P. induction y as [|x y IH]; [reflexivity|]. cbn [existsb]. apply orb_false_iff. split; [apply le_positive; apply P; left; reflexivity|apply IH; intros; apply P; right; assumption].
Qed.
Lemma calc_logs (y : list R) l : (4 <= length y)%nat -> allowed l -> (forall x, In x y -> 0 < x) ->
  exists g, HP_calc reals y l false = (0%Z, map Rtrigo_def.exp g) /\ solution reals (length y) (HP_matrix reals (length y) l) g (map ln y).
Proof.
  intros N L P. apply allowed_eps in L. destruct (solved (length y) l L N (map ln y) (map_length _ _)) as (g & E & S). exists g. split; [|exact S].
  unfold HP_calc. change (F reals) with R in * . replace (Nat.ltb (length y) 4) with false by lia. change (ofZ reals 0) with 0. rewrite (none_negative y P).
  unfold negb, andb. change (log reals) with ln. rewrite E. reflexivity.
Qed.
Lemma solution_unique n l (L : l = 0 \/ 2 * eps <= l) (N : (4 <= n)%nat) (y g g' : list R) : length y = n ->
  solution reals n (HP_matrix reals n l) g y -> solution reals n (HP_matrix reals n l) g' y -> g = g'.
Proof. intros Ly S S'. apply (trend_unique l y); apply (solution_trend n l L N); assumption. Qed.
(** The equations, tested with a vector. *)
Lemma tested n l (N : (4 <= n)%nat) (y g : list R) (u : nat -> R) : solution reals n (HP_matrix reals n l) g y ->
  SumR n (fun i => u i * fn g i) + l * SumR (n - 2) (fun k => second u k * second (fn g) k) = SumR n (fun i => u i * fn y i).
Proof.
  intros (Lg & Eg). rewrite <- form. apply sum_ext. intros i Hi. f_equal. rewrite <- row_at by assumption. exact (Eg i Hi).
Qed.
Lemma straight_tested n l (N : (4 <= n)%nat) (y g : list R) (u : nat -> R) : (forall k, second u k = 0) -> solution reals n (HP_matrix reals n l) g y ->
  SumR n (fun i => u i * fn g i) = SumR n (fun i => u i * fn y i).
Proof.
  intros Z S. rewrite <- (tested n l N y g u S). rewrite (sum_ext (n - 2) (fun k => second u k * second (fn g) k) (fun k => 0 * 0)) by (intros; rewrite Z; ring).
  rewrite sum_mult. ring.
Qed.
Lemma criterion_nonneg l y g : 0 <= l -> 0 <= criterion l y g.
Proof.
  intros L. unfold criterion, distance, roughness. rewrite (sum_to_eq (length y)), (sum_to_eq (length y - 2)).
  assert (0 <= SumR (length y) (fun k => (at_ y k - at_ g k) * (at_ y k - at_ g k))) by (apply sum_nonneg; intros; exact (Rle_0_sqr _)).
  assert (0 <= SumR (length y - 2) (fun k => second (at_ g) k * second (at_ g) k)) by (apply sum_nonneg; intros; exact (Rle_0_sqr _)). nra.
Qed.
(** A series without second differences is its own trend. *)
Lemma straight_trend l (y : list R) : 0 <= l -> (forall k, (k + 2 < length y)%nat -> second (at_ y) k = 0) -> trend l y y.
Proof.
  intros L Z. split; [reflexivity|]. intros g' Lg' Ne.
  assert (E : criterion l y y = 0).
  { unfold criterion, distance, roughness. rewrite (sum_to_eq (length y)), (sum_to_eq (length y - 2)).
    rewrite (sum_ext (length y) _ (fun k => 0 * 0)) by (intros; ring). rewrite (sum_ext (length y - 2) _ (fun k => 0 * 0)) by (intros k Hk; rewrite Z by lia; ring).
    rewrite !sum_mult. ring. }
  rewrite E. pose proof (criterion_nonneg l y g' L) as P. destruct (Rle_lt_or_eq_dec _ _ P) as [Q|Q]; [exact Q|exfalso]. apply Ne.
  unfold criterion, distance, roughness in Q. rewrite (sum_to_eq (length y)), (sum_to_eq (length y - 2)) in Q.
  assert (0 <= SumR (length y) (fun k => (at_ y k - at_ g' k) * (at_ y k - at_ g' k))) by (apply sum_nonneg; intros; exact (Rle_0_sqr _)).
  assert (0 <= SumR (length y - 2) (fun k => second (at_ g') k * second (at_ g') k)) by (apply sum_nonneg; intros; exact (Rle_0_sqr _)).
  assert (Z0 : SumR (length y) (fun k => (at_ y k - at_ g' k) * (at_ y k - at_ g' k)) = 0) by nra.
  apply nth_ext with (d := 0) (d' := 0); [exact Lg'|]. intros k Hk. rewrite Lg' in Hk. pose proof (sum_zero_sq _ (fun k => at_ y k - at_ g' k) Z0 k Hk) as K. unfold at_ in K. cbn beta in K. lra.
Qed.
Lemma combined_at a b y z k : (k < length y)%nat -> fn (combined a b y z) k = a * fn y k + b * fn z k.
Proof. intros Hk. unfold combined, fn. rewrite nth_seq_map by exact Hk. reflexivity. Qed.
Lemma combined_solution n l a b (y z g h : list R) : (4 <= n)%nat -> length y = n -> length z = n -> solution reals n (HP_matrix reals n l) g y -> solution reals n (HP_matrix reals n l) h z ->
  solution reals n (HP_matrix reals n l) (combined a b g h) (combined a b y z).
Proof.
  intros N Ly Lz (Lg & Eg) (Lh & Eh). split; [unfold combined; rewrite map_length, seq_length; exact Lg|]. assert (Lg' : @length R g = n) by exact Lg. intros i Hi.
  pose proof (Eg i Hi) as Kg. pose proof (Eh i Hi) as Kh. rewrite row_at in Kg, Kh by assumption. rewrite row_at by assumption.
  change (nth i (combined a b y z) (ofZ reals 0)) with (fn (combined a b y z) i). rewrite combined_at by (rewrite Ly; exact Hi).
  rewrite (sum_ext n _ (fun j => a * (H n l i j * fn g j) + b * (H n l i j * fn h j))) by (intros j Hj; rewrite combined_at by (rewrite Lg'; exact Hj); ring).
  rewrite sum_plus, !sum_mult. change (nth i y (ofZ reals 0)) with (fn y i) in Kg. change (nth i z (ofZ reals 0)) with (fn z i) in Kh. rewrite Kg, Kh. reflexivity.
Qed.

(** * Missing values *)

Lemma leading_app {A} (p : F A -> bool) x y : (forall v, In v x -> p v = true) -> leading A p (x ++ y) = (length x + leading A p y)%nat.
Proof.
  intros P. induction x as [|v x IH]; [reflexivity|]. cbn. rewrite (P v) by (left; reflexivity). rewrite IH; [reflexivity|]. intros w Hw. apply P. right. exact Hw.
Qed.
Lemma leading_stop {A} (p : F A -> bool) y : (y = [] \/ exists v y', y = v :: y' /\ p v = false) -> leading A p y = 0%nat.
Proof. intros [->|(v & y' & -> & E)]; [reflexivity|]. cbn. rewrite E. reflexivity. Qed.
Lemma skipn_len {X} (x y : list X) : skipn (length x) (x ++ y) = y.
Proof. induction x as [|v x IH]; [reflexivity|exact IH]. Qed.
Lemma firstn_len {X} (x y : list X) : firstn (length x) (x ++ y) = x.
Proof. induction x as [|v x IH]; [reflexivity|]. cbn. rewrite IH. reflexivity. Qed.
Lemma test_parts (A : arith) (before y after : list (F A)) :
  (forall v, In v before -> num A v = false) -> y <> [] -> (forall v, In v y -> num A v = true) -> (after = [] \/ exists v r, after = v :: r /\ num A v = false) ->
  HP_test A (before ++ y ++ after) = (length before, length y).
Proof.
  intros Pb Ny Py Pa. unfold HP_test.
  assert (E : leading A (fun x => negb (num A x)) (before ++ y ++ after) = length before).
  { rewrite leading_app by (intros v Hv; rewrite (Pb v Hv); reflexivity). rewrite leading_stop; [apply Nat.add_0_r|]. right. destruct y as [|v y]; [contradiction|].
    exists v, (y ++ after). split; [reflexivity|]. rewrite Py by (left; reflexivity). reflexivity. }
  rewrite E, skipn_len, leading_app by exact Py. rewrite (leading_stop (num A) after Pa), Nat.add_0_r. reflexivity.
Qed.
Lemma series_parts (A : arith) (before y after : list (F A)) lambda std :
  (forall v, In v before -> num A v = false) -> y <> [] -> (forall v, In v y -> num A v = true) -> (after = [] \/ exists v r, after = v :: r /\ num A v = false) ->
  HP_series A (before ++ y ++ after) lambda std = repeat (na A) (length before) ++ snd (HP_calc A y lambda std) ++ repeat (na A) (length after).
Proof.
  intros Pb Ny Py Pa. unfold HP_series. rewrite (test_parts A before y after Pb Ny Py Pa), skipn_len, firstn_len. rewrite !app_length.
  replace (length before + (length y + length after) - (length before + length y))%nat with (length after) by lia. reflexivity.
Qed.

(** * A lambda less than 1/10^25 *)

Lemma any_solution n l (y : list R) : 0 <= l -> (4 <= n)%nat -> length y = n -> exists g, solution reals n (HP_matrix reals n l) g y.
Proof.
  intros L N Ly. destruct (C83_inverse_of_definite reals reals_field n (HP_matrix reals n l)) as (b & Eb).
  - intros x (k & Hk & Nk) Z. apply Nk. change (fn x k = 0).
    assert (Q : SumR n (fun i => fn x i * fn x i) + l * SumR (n - 2) (fun k => second (fn x) k * second (fn x) k) = 0).
    { rewrite <- form. etransitivity; [|exact Z]. apply sum_ext. intros i Hi. rewrite <- row_at by assumption. reflexivity. }
    assert (0 <= SumR n (fun i => fn x i * fn x i)) by (apply sum_nonneg; intros; exact (Rle_0_sqr _)).
    assert (0 <= SumR (n - 2) (fun k => second (fn x) k * second (fn x) k)) by (apply sum_nonneg; intros; exact (Rle_0_sqr _)).
    apply (sum_zero_sq n (fn x)); [nra|exact Hk].
  - set (g := map (fun i => SumR n (fun k => get b i k * fn y k)) (seq 0 n)). exists g. split; [unfold g; rewrite map_length, seq_length; reflexivity|].
    intros i Hi. pose proof (proj2 (inv_spec reals reals_field n _ b Eb (fn g) (fn y))) as K. specialize (K ltac:(intros j Hj; unfold g, fn at 2; rewrite nth_seq_map by exact Hj; reflexivity)).
    exact (K i Hi).
Qed.
(** Nothing is eliminated. *)
Definition untouched n (l : R) (y : list R) (s : system reals) : Prop :=
  forall i, (i < n)%nat -> @Logic.eq R (at_b s i) (fn y i) /\ forall j, (j < n)%nat -> @Logic.eq R (get (s_a s) i j) (H n l i j).
Lemma step_b (A : arith) n r (s s' : system A) : gel_step A n r s = Some s' -> ZERO A (get (s_a s) r r) = false -> forall i, (i < n)%nat ->
  at_b s' i = if Nat.ltb r i && negb (ZERO A (get (s_a s) i r)) then add A (at_b s i) (mul A (dvd A (neg A (get (s_a s) i r)) (get (s_a s) r r)) (at_b s r)) else at_b s i.
Proof. intros E Z i Hi. unfold gel_step in E. rewrite Z in E. injection E as <-. rewrite (at_b_map A n) by exact Hi. reflexivity. Qed.
Lemma H_diag n l i : (4 <= n)%nat -> 0 <= l -> (i < n)%nat -> 1 <= H n l i i.
Proof. intros N L Hi. unfold H. rewrite d_over. unfold d, I. cases; cbn [andb]; lra. Qed.
Lemma H_small n l i j : (4 <= n)%nat -> 0 <= l -> (i < n)%nat -> (j < n)%nat -> i <> j -> Rabs (H n l i j) <= 4 * l.
Proof. intros N L Hi Hj Ne. apply Rabs_le. unfold H. rewrite d_over. unfold d, I. cases; cbn [andb]; lra. Qed.
Lemma untouched_steps n l (y : list R) : (4 <= n)%nat -> 0 <= l -> 4 * l < eps -> forall rs (s s' : system reals), (forall r, In r rs -> (r < n)%nat) -> untouched n l y s -> gel_steps reals n rs s = Some s' -> untouched n l y s'.
Proof.
  intros N L Sm. induction rs as [|r rs IH]; intros s s' Hr U E; [cbn in E; injection E as <-; exact U|]. cbn [gel_steps] in E.
  destruct (gel_step reals n r s) as [s1|] eqn:E1; [|discriminate]. apply (IH s1 s'); [intros q Hq; apply Hr; right; exact Hq| |exact E].
  specialize (Hr r (or_introl eq_refl)). assert (Z : ZERO reals (get (s_a s) r r) = false) by (destruct (U r Hr) as (_ & G); rewrite (G r Hr); apply ZERO_big; apply H_diag; assumption).
  assert (T : forall i, (i < n)%nat -> Nat.ltb r i && negb (ZERO reals (get (s_a s) i r)) = false).
  { intros i Hi. destruct (Nat.ltb_spec r i) as [Q|Q]; [|reflexivity]. rewrite andb_true_l. apply negb_false_iff. apply ZERO_def. destruct (U i Hi) as (_ & G). rewrite (G r Hr).
    pose proof (H_small n l i r N L Hi Hr ltac:(lia)). lra. }
  intros i Hi. destruct (U i Hi) as (Ub & Ua). split; [rewrite (step_b reals n r s s1 E1 Z i Hi), (T i Hi); exact Ub|].
  intros j Hj. rewrite (step_get reals n r s s1 E1 Z i j Hi Hj), (T i Hi). exact (Ua j Hj).
Qed.
Lemma bw_last (A : arith) n (s : system A) : forall i x, exists p, bw_sub A n i s x = p ++ x.
Proof. induction i as [|i IH]; intros x; [exists []; reflexivity|]. cbn [bw_sub]. match goal with |- exists p, bw_sub A n i s (?v :: x) = _ => destruct (IH (v :: x)) as (p & E); exists (p ++ [v]) end. rewrite E, <- app_assoc. reflexivity. Qed.
Lemma bw_length (A : arith) n (s : system A) : forall i x, length (bw_sub A n i s x) = (i + length x)%nat.
Proof. induction i as [|i IH]; intros x; [reflexivity|]. cbn [bw_sub]. rewrite IH. cbn [length]. lia. Qed.
(** The last value returned is the last value of the series, divided by 1 + lambda. *)
Lemma tiny_last l (y : list R) : length y = 4%nat -> 0 <= l -> 4 * l < eps -> fn y 3 = 0 -> fn (snd (HP_calc reals y l true)) 3 = 0.
Proof.
  intros Ly L Sm Z. assert (Ly' : @length (F reals) y = 4%nat) by exact Ly. unfold HP_calc. rewrite Ly'. change (Nat.ltb 4 4) with false. cbv iota. change (negb true && existsb (fun x => le_f reals x (ofZ reals 0)) y)%bool with false. cbv iota.
  destruct (M_solve reals 4 (HP_matrix reals 4 l) y) as [g|] eqn:E; [|reflexivity]. change (fn g 3 = 0).
  unfold M_solve in E. unfold M_gel_ut in E. destruct (gel_steps reals 4 (seq 0 (4 - 1)) (mkSys (HP_matrix reals 4 l) y)) as [s|] eqn:Es; [|discriminate].
  assert (U : untouched 4 l y s).
  { apply (untouched_steps 4 l y ltac:(lia) L Sm (seq 0 (4 - 1)) (mkSys (HP_matrix reals 4 l) y) s); [intros r Hr; apply in_seq in Hr; lia| |exact Es].
    intros i Hi. split; [reflexivity|]. intros j Hj. apply (matrix_at 4 l i j); lia. }
  destruct (ZERO reals (get (s_a s) (4 - 1) (4 - 1))); [discriminate|]. injection E as <-.
  destruct (U 3%nat ltac:(lia)) as (Ub & _). rewrite Z in Ub.
  destruct (bw_last reals 4 s 3 [(at_b s 3 - 0) / get (s_a s) 3 3]) as (p & Ep). pose proof (bw_length reals 4 s 3 [(at_b s 3 - 0) / get (s_a s) 3 3]) as Lp.
  change (fn (bw_sub reals 4 3 s [(at_b s 3 - 0) / get (s_a s) 3 3]) 3 = 0). rewrite Ep in Lp |- * . rewrite app_length in Lp. cbn [length] in Lp. assert (Q : length p = 3%nat) by lia.
  unfold fn. rewrite app_nth2 by (rewrite Q; lia). rewrite Q. cbn [nth Nat.sub]. rewrite Ub. unfold Rdiv. ring.
Qed.
