From Coq Require Import ZArith Ascii String List Bool Reals Lra Lia FunctionalExtensionality.
From Verif Require Import M_Base M_Names M_Exec M_Real M_Season S_Season L_Season L_Season2.
Import ListNotations.
Open Scope R_scope.

Lemma r_lt_scale k x y : 0 < k -> r_lt (k * x) (k * y) = r_lt x y.
Proof.
  intros K. unfold r_lt. destruct (Rlt_dec (k * x) (k * y)) as [H|H], (Rlt_dec x y) as [G|G]; try reflexivity; exfalso.
  - apply G. apply (Rmult_lt_reg_l k); assumption.
  - apply H. apply Rmult_lt_compat_l; assumption.
Qed.
Lemma fmin_scale k x y : 0 < k -> fmin reals (k * x) (k * y) = k * fmin reals x y.
Proof. intros K. unfold fmin. rr. rewrite r_lt_scale by exact K. destruct (r_lt y x); reflexivity. Qed.
Lemma low_scale k b z : 0 < k -> fold_left (fmin reals) (map (fun x => k * x) b) (k * z) = k * fold_left (fmin reals) b z.
Proof. intros K. revert z. induction b as [|x b IH]; intros z; [reflexivity|]. cbn [map fold_left]. rewrite fmin_scale by exact K. apply IH. Qed.
Lemma nth_scale k u i : nth i (map (fun x => k * x) u) 0 = k * nth i u 0.
Proof. replace 0 with (k * 0) at 1 by ring. apply (map_nth (fun x => k * x)). Qed.
Lemma ratio_scale k a b : k <> 0 -> 200 * (k * a) / (k * b) = 200 * a / b.
Proof. intros K. unfold Rdiv. rewrite Rinv_mult. replace (200 * (k * a) * (/ k * / b)) with (200 * a * / b * (k * / k)) by ring. rewrite Rinv_r by exact K. ring. Qed.

Section Units.
Variables (p : nat) (k : R) (a b t t' : list R).
Hypothesis K : 0 < k.
Lemma low_units : low (map (fun x => k * x) b) = k * low b.
Proof. unfold low. replace 0 with (k * 0) at 1 by ring. apply low_scale, K. Qed.
Lemma neg_units : r_lt (low (map (fun x => k * x) b)) 0 = r_lt (low b) 0.
Proof. rewrite low_units. rewrite <- (r_lt_scale k (low b) 0 K). rewrite Rmult_0_r. reflexivity. Qed.
Lemma shift_units : the_shift (map (fun x => k * x) b) = k * the_shift b.
Proof. unfold the_shift. rewrite neg_units, low_units. destruct (r_lt (low b) 0); lra. Qed.
Lemma full_units : full p (map (fun x => k * x) b) = full p b. Proof. unfold full. rewrite map_length. reflexivity. Qed.
Lemma lag_units : lag p a (map (fun x => k * x) b) = lag p a b. Proof. unfold lag. rewrite full_units, map_length. reflexivity. Qed.
Lemma used_units : used p (map (fun x => k * x) b) = map (fun x => k * x) (used p b).
Proof.
  unfold used. rewrite full_units, map_length, neg_units, shift_units. rewrite <- (skipn_map (fun x => k * x)). f_equal. destruct (r_lt (low b) 0); [|reflexivity].
  rewrite !map_map. apply map_ext. intros x. ring.
Qed.
Lemma test_units eps u lg : test_of p eps (map (fun x => k * x) u) lg = test_of p eps u lg.
Proof.
  unfold test_of. rewrite map_length.
  assert (T : forall l, total reals l (fun g => 200 * nth (g - lg) (map (fun x => k * x) u) 0 / (nth (g - 1 - lg) (map (fun x => k * x) u) 0 + nth (g + 1 - lg) (map (fun x => k * x) u) 0))
    = total reals l (fun g => 200 * nth (g - lg) u 0 / (nth (g - 1 - lg) u 0 + nth (g + 1 - lg) u 0))).
  { intros l. apply total_ext. intros g _. rewrite !nth_scale, <- Rmult_plus_distr_l. apply ratio_scale. lra. }
  do 3 f_equal; match goal with |- fold_left ?u _ _ = fold_left ?v _ _ => replace u with v; [reflexivity|] end; apply functional_extensionality; intros x; apply functional_extensionality; intros f; rewrite T; reflexivity.
Qed.
End Units.

Lemma scaled_not k (a : list R) : Forall (fun x => num reals x = false) a -> scaled k a = a.
Proof. induction 1 as [|x a H _ IH]; [reflexivity|]. cbn [scaled map]. change (r_num x) with (num reals x). rewrite H. exact (f_equal (cons x) IH). Qed.
Lemma scaled_num k (b : list R) : Forall (fun x => num reals x = true) b -> scaled k b = map (fun x => k * x) b.
Proof. induction 1 as [|x a H _ IH]; [reflexivity|]. cbn [scaled map]. change (r_num x) with (num reals x). rewrite H. exact (f_equal (cons (k * x)) IH). Qed.
Lemma scaled_app k a b : scaled k (a ++ b) = scaled k a ++ scaled k b. Proof. apply map_app. Qed.
Lemma scaled_units k l : Forall2 (in_units k) l (scaled k l).
Proof. induction l as [|x l IH]; [constructor|]. cbn [scaled map]. constructor; [|exact IH]. unfold in_units. destruct (r_num x); [left; reflexivity|right; split; reflexivity]. Qed.
Lemma units_map k (g g' : nat -> R) l : (forall f, g' f = k * g f) -> Forall2 (in_units k) (map g l) (map g' l).
Proof. intros H. induction l as [|x l IH]; [constructor|]. cbn [map]. constructor; [left; apply H|exact IH]. Qed.
Lemma units_mul k l : Forall2 (in_units k) l (map (fun x => k * x) l).
Proof. induction l as [|x l IH]; [constructor|]. cbn [map]. constructor; [left; reflexivity|exact IH]. Qed.
Lemma units_na k n : Forall2 (in_units k) (repeat r_na n) (repeat r_na n).
Proof. induction n as [|n IH]; [constructor|]. cbn [repeat]. constructor; [right; split; [exact r_num_na|reflexivity]|exact IH]. Qed.
Lemma vec_units p k u : 0 < k -> forall y shift,
  DS_vec reals p y (fun f => k * u f) (k * shift) = match DS_vec reals p y u shift with
    | Ok (v, c, i, s) => Ok (fun f => k * v f, fun f => k * c f, i, s) | Throw => Throw | UB => UB end.
Proof.
  intros K y shift. unfold DS_vec. destruct (Nat.ltb y 3); [reflexivity|]. rr. rewrite second_scale by lra. rewrite quot_scale, spencer_scale. do 2 f_equal. f_equal; [f_equal|].
  - apply functional_extensionality. intros f. unfold Rdiv. ring.
  - apply functional_extensionality. intros f. ring.
  - apply functional_extensionality. intros f. replace (100 * (k * u f) / second_bi reals p y u f) with (k * (100 * u f / second_bi reals p y u f)) by (unfold Rdiv; ring). apply div_scale. lra.
Qed.

(** The result on the three parts of a series. *)
Section Result.
Variables (eps : R) (p : nat) (name : str) (a b t : list R).
Hypothesis Ha : Forall (fun x => num reals x = false) a.
Hypothesis Hb : Forall (fun x => num reals x = true) b.
Hypothesis Ht : stops t.
Hypothesis Hbt : b = [] -> t = [].
Definition result : res (list (str * list R)) :=
  if test_of p eps (used p b) (lag p a b) then
    match DS_vec reals p (full p b / p) (fun f => nth f (used p b) 0) (the_shift b) with
    | Ok (v, c, i, _) => Ok [(name, repeat r_na (lag p a b) ++ map v (seq 0 (full p b)) ++ t);
        (S2L "_C" ++ name, repeat r_na (lag p a b) ++ map c (seq 0 (full p b)) ++ repeat r_na (length t));
        (S2L "_I" ++ name, repeat r_na (lag p a b) ++ map i (seq 0 (full p b)) ++ repeat r_na (length t))]
    | Throw => Throw | UB => UB end
  else Ok [(name, repeat r_na (lag p a b) ++ used p b ++ t)].
Lemma season_parts : season_series reals eps p name (a ++ b ++ t) = result.
Proof.
  unfold season_series, result. rewrite DS_test_parts by assumption. destruct (test_of _ _ _ _); [|reflexivity].
  rr. replace (firstn (full p b) (skipn (lag p a b) (repeat r_na (lag p a b) ++ used p b ++ t))) with (used p b).
  - destruct (DS_vec reals p (full p b / p) (fun f => nth f (used p b) 0) (the_shift b)) as [[[[v c] i] s]| |]; [|reflexivity|reflexivity]. cbv beta iota. change (na reals) with r_na.
    replace (firstn (lag p a b) (repeat r_na (lag p a b) ++ used p b ++ t)) with (repeat r_na (lag p a b)) by (rewrite firstn_app, repeat_length, Nat.sub_diag, firstn_O, app_nil_r; symmetry; apply firstn_all2; rewrite repeat_length; lia).
    replace (skipn (lag p a b + full p b) (repeat r_na (lag p a b) ++ used p b ++ t)) with t.
    + replace (length (a ++ b ++ t) - (lag p a b + full p b))%nat with (length t); [reflexivity|]. rewrite !app_length. pose proof (full_le p b). unfold lag. lia.
    + rewrite app_assoc, skipn_app. rewrite skipn_all2 by (rewrite app_length, repeat_length, used_length; lia). rewrite app_length, repeat_length, used_length, Nat.sub_diag. reflexivity.
  - rewrite skipn_app, repeat_length, Nat.sub_diag. rewrite skipn_all2 by (rewrite repeat_length; lia). cbn [app skipn]. rewrite firstn_app, used_length, Nat.sub_diag, firstn_O, app_nil_r. symmetry. apply firstn_all2. rewrite used_length. lia.
Qed.
End Result.

Lemma units_series k eps p name l : 0 < k -> (forall x, In x l -> r_num x = true -> r_num (k * x) = true) ->
  same_in_units k (season_series reals eps p name l) (season_series reals eps p name (scaled k l)).
Proof.
  intros K Hn. destruct (three_parts l) as (a & b & t & -> & Ha & Hb & Ht & Hbt). rewrite !scaled_app, (scaled_not k a Ha), (scaled_num k b Hb).
  rewrite (season_parts eps p name a b t Ha Hb Ht Hbt). rewrite (season_parts eps p name a (map (fun x => k * x) b) (scaled k t)).
  - unfold result. rewrite used_units, lag_units, full_units, shift_units, test_units by exact K. destruct (test_of _ _ _ _).
    + replace (fun f => nth f (map (fun x => k * x) (used p b)) 0) with (fun f => k * nth f (used p b) 0) by (apply functional_extensionality; intros f; symmetry; apply nth_scale).
      rewrite vec_units by exact K. destruct (DS_vec reals p (full p b / p) (fun f => nth f (used p b) 0) (the_shift b)) as [[[[v c] i] s]| |] eqn:D; [|unfold DS_vec in D; destruct (Nat.ltb _ _); discriminate D|exact I].
      cbn. unfold scaled at 2 3. rewrite map_length. repeat split; try reflexivity.
      * apply Forall2_app; [apply units_na|]. apply Forall2_app; [apply units_map; reflexivity|apply scaled_units].
      * apply Forall2_app; [apply units_na|]. apply Forall2_app; [apply units_map; reflexivity|apply units_na].
    + cbn. split; [reflexivity|]. apply Forall2_app; [apply units_na|]. apply Forall2_app; [apply units_mul|apply scaled_units].
  - exact Ha.
  - apply Forall_forall. intros x Hx. apply in_map_iff in Hx as (z & <- & Hz). apply Hn; [apply in_or_app; right; apply in_or_app; left; exact Hz|]. rewrite Forall_forall in Hb. exact (Hb z Hz).
  - destruct t as [|x t]; [exact I|]. cbn in *. change (num reals x) with (r_num x) in Ht. rewrite Ht. exact Ht.
  - intros E. apply map_eq_nil in E. rewrite (Hbt E). reflexivity.
Qed.

(** * A level and factors *)
Section Exact.
Variables (p y : nat) (c : R) (s : nat -> R).
Hypothesis P2 : (2 <= p)%nat.
Hypothesis Y3 : (3 <= y)%nat.
Hypothesis Ev : Nat.even p = true.
Hypothesis M1 : mean_one p s.
Let s' := fun f => s (f mod p)%nat.
Lemma s_periodic : periodic p s'.
Proof. intros f. unfold s'. f_equal. rewrite <- (Nat.mul_1_l p) at 1. apply Nat.mod_add. lia. Qed.
Lemma total_right (l : list nat) g : total reals l g = fold_right Rplus 0 (map g l).
Proof. induction l as [|x l IH]; [reflexivity|]. rewrite total_cons, IH. reflexivity. Qed.
Lemma s_total : total reals (seq 0 p) s' = IZR (Z.of_nat p).
Proof. rewrite <- INR_IZR_INZ. rewrite <- M1, <- total_right. apply total_ext. intros m Hm. apply in_seq in Hm. unfold s'. rewrite Nat.mod_small by lia. reflexivity. Qed.
Lemma nth_exact f : (f < p * y)%nat -> nth f (seasonal_series p y c s) 0 = c * s' f.
Proof. intros Hf. unfold seasonal_series. rewrite (nth_indep _ 0 (c * s (0 mod p)%nat)) by (rewrite map_length, seq_length; exact Hf). rewrite (map_nth (fun f => c * s (f mod p)%nat)), seq_nth by exact Hf. reflexivity. Qed.
Hypothesis C0 : 0 < c.
Hypothesis S0 : forall m, (m < p)%nat -> 0 < s m.
Lemma s_pos f : 0 < s' f. Proof. apply S0. apply Nat.mod_upper_bound. lia. Qed.
Lemma exact_pos x : In x (seasonal_series p y c s) -> 0 < x.
Proof. intros H. apply in_map_iff in H as (f & <- & _). apply Rmult_lt_0_compat; [exact C0|apply s_pos]. Qed.
Lemma pos_num x : 0 < x -> num reals x = true.
Proof. intros H. change (r_num x = true). unfold r_num. destruct (Rle_dec _ _) as [G|G]; [reflexivity|]. exfalso. apply G. assert (0 <= 10 ^ 37) by (apply pow_le; lra). lra. Qed.
Lemma low_zero l : (forall x, In x l -> 0 < x) -> fold_left (fmin reals) l 0 = 0.
Proof.
  induction l as [|x l IH]; intros H; [reflexivity|]. cbn [fold_left]. replace (fmin reals 0 x) with 0; [apply IH; intros z Hz; apply H; right; exact Hz|].
  unfold fmin. rr. unfold r_lt. destruct (Rlt_dec x 0) as [G|G]; [|reflexivity]. specialize (H x (or_introl eq_refl)). lra.
Qed.
Lemma map_repeat (g : nat -> R) z n : (forall f, (f < n)%nat -> g f = z) -> map g (seq 0 n) = repeat z n.
Proof.
  intros H. assert (L : forall k i, (i + k <= n)%nat -> map g (seq i k) = repeat z k).
  { induction k as [|k IH]; intros i Hi; [reflexivity|]. cbn [seq map repeat]. rewrite H by lia. f_equal. apply IH. lia. }
  apply L. lia.
Qed.
Lemma exact_test eps name :
  season_series reals eps p name (seasonal_series p y c s) = if test_of p eps (seasonal_series p y c s) 0
    then Ok [(name, repeat c (p * y)); (S2L "_C" ++ name, repeat c (p * y)); (S2L "_I" ++ name, repeat 100 (p * y))] else Ok [(name, seasonal_series p y c s)].
Proof.
  set (l := seasonal_series p y c s). assert (L : length l = (p * y)%nat) by (unfold l, seasonal_series; rewrite map_length, seq_length; reflexivity).
  replace (season_series reals eps p name l) with (season_series reals eps p name ([] ++ l ++ [])) by (cbn [app]; rewrite app_nil_r; reflexivity).
  rewrite season_parts; [|constructor| |exact I|reflexivity].
  2: { apply Forall_forall. intros x Hx. apply pos_num, exact_pos, Hx. }
  unfold result. assert (Lo : low l = 0) by (apply low_zero; exact exact_pos).
  assert (R0 : r_lt 0 0 = false) by (unfold r_lt; destruct (Rlt_dec 0 0); [lra|reflexivity]).
  assert (Sh : the_shift l = 0) by (unfold the_shift; rewrite Lo, R0; reflexivity).
  assert (Fu : full p l = (p * y)%nat) by (unfold full; rewrite L, (Nat.mul_comm p y), Nat.div_mul by lia; reflexivity).
  assert (Us : used p l = l) by (unfold used; rewrite Fu, L, Nat.sub_diag, Lo, R0; reflexivity).
  assert (La : lag p [] l = 0%nat) by (unfold lag; rewrite Fu, L, Nat.sub_diag; reflexivity).
  rewrite Us, La, Fu, Sh. replace (p * y / p)%nat with y by (rewrite Nat.mul_comm, Nat.div_mul by lia; reflexivity). destruct (test_of _ _ _ _); [|cbn [repeat app]; rewrite app_nil_r; reflexivity].
  destruct (DS_vec_h p y P2 Y3 Ev c s') with (vec := fun f => nth f l 0) (shift := 0) as (v & c1 & i1 & se & -> & H & _).
  - lra.
  - intros f. pose proof (s_pos f). lra.
  - exact s_periodic.
  - exact s_total.
  - intros f Hf. apply nth_exact, Hf.
  - cbn [repeat app length]. rewrite !app_nil_r. rewrite (map_repeat v c), (map_repeat c1 c), (map_repeat i1 100); [reflexivity| | |]; intros f Hf; destruct (H f Hf) as (A1 & A2 & A3); lra.
Qed.
Lemma exact_series eps name :
  season_series reals eps p name (seasonal_series p y c s) = Ok [(name, seasonal_series p y c s)] \/
  season_series reals eps p name (seasonal_series p y c s) = Ok [(name, repeat c (p * y)); (S2L "_C" ++ name, repeat c (p * y)); (S2L "_I" ++ name, repeat 100 (p * y))].
Proof. rewrite exact_test. destruct (test_of _ _ _ _); [right|left]; reflexivity. Qed.
End Exact.

(** * The number of the values of a month *)
Lemma filter_app_length {X} (q : X -> bool) a b : length (filter q (a ++ b)) = (length (filter q a) + length (filter q b))%nat.
Proof. rewrite filter_app, app_length. reflexivity. Qed.
Lemma one_month p f k n : (f < p)%nat -> (n <= p)%nat -> length (filter (fun g => Nat.eqb (g mod p) f) (seq (p * k) n)) = if Nat.ltb f n then 1%nat else 0%nat.
Proof.
  intros F. induction n as [|n IH]; intros N; [reflexivity|]. rewrite seq_S, filter_app_length, IH by lia. cbn [filter]. replace ((p * k + n) mod p)%nat with n by (rewrite Nat.mul_comm, Nat.add_comm, Nat.mod_add, Nat.mod_small by lia; reflexivity).
  destruct (Nat.eqb_spec n f), (Nat.ltb_spec f n), (Nat.ltb_spec f (S n)); cbn; lia.
Qed.
Lemma all_months p f y : (f < p)%nat -> length (filter (fun g => Nat.eqb (g mod p) f) (seq 0 (p * y))) = y.
Proof.
  intros F. induction y as [|y IH]; [rewrite Nat.mul_0_r; reflexivity|]. replace (p * S y)%nat with (p * y + p)%nat by lia. rewrite seq_app, filter_app_length, IH. cbn [Nat.add]. rewrite one_month by lia.
  replace (Nat.ltb f p) with true by (symmetry; apply Nat.ltb_lt; exact F). lia.
Qed.
Lemma inner_months p f y : (2 <= p)%nat -> (1 <= y)%nat -> (f < p)%nat ->
  (length (filter (fun g => Nat.eqb (g mod p) f) (seq 1 (p * y - 2))) + (if Nat.eqb f 0 then 1 else 0) + (if Nat.eqb f (p - 1) then 1 else 0) = y)%nat.
Proof.
  intros P Y F. rewrite <- (all_months p f y F) at 2. replace (p * y)%nat with (1 + ((p * y - 2) + 1))%nat at 2 by nia. rewrite !seq_app, !filter_app_length. cbn [Nat.add].
  replace (length (filter (fun g => Nat.eqb (g mod p) f) (seq 0 1))) with (if Nat.eqb f 0 then 1 else 0)%nat by (cbn [seq filter]; rewrite Nat.mod_0_l by lia; destruct f; reflexivity).
  replace (length (filter (fun g => Nat.eqb (g mod p) f) (seq (S (p * y - 2)) 1))) with (if Nat.eqb f (p - 1) then 1 else 0)%nat; [lia|].
  cbn [seq filter]. replace (S (p * y - 2) mod p)%nat with (p - 1)%nat; [destruct (Nat.eqb_spec f (p - 1)), (Nat.eqb_spec (p - 1) f); cbn; lia|].
  replace (S (p * y - 2)) with (p - 1 + (y - 1) * p)%nat by nia. rewrite Nat.mod_add, Nat.mod_small by lia. reflexivity.
Qed.

(** * Months *)
Section Months.
Variables (y : nat) (c : R) (s : nat -> R).
Hypothesis Y3 : (3 <= y)%nat.
Hypothesis C0 : 0 < c.
Hypothesis S0 : forall m, (m < 12)%nat -> 0 < s m.
Let l := seasonal_series 12 y c s.
Definition ti (f : nat) : R :=
  let ti0 := total reals (filter (fun g => Nat.eqb (g mod 12) f) (seq (0 + 1) (length l - 2))) (fun g => 200 * nth (g - 0) l 0 / (nth (g - 1 - 0) l 0 + nth (g + 1 - 0) l 0)) in
  if (Nat.eqb f 0 || Nat.eqb f 11)%bool then ti0 / IZR (Z.of_nat (length l / 12) - 1) else ti0 / IZR (Z.of_nat (length l / 12)).
Lemma length_l : length l = (12 * y)%nat. Proof. unfold l, seasonal_series. rewrite map_length, seq_length. reflexivity. Qed.
Lemma s_up m : 0 < s (m mod 12)%nat. Proof. apply S0. apply Nat.mod_upper_bound. lia. Qed.
Lemma ti_ratio f : (f < 12)%nat -> ti f = month_ratio s f.
Proof.
  intros F. unfold ti. rewrite length_l. rewrite (total_ext _ _ (fun _ => month_ratio s f)).
  - rewrite total_const. change (0 + 1)%nat with 1%nat. pose proof (inner_months 12 f y ltac:(lia) ltac:(lia) F) as N. set (n := length _) in *. change (12 - 1)%nat with 11%nat in N.
    replace (12 * y / 12)%nat with y by (rewrite Nat.mul_comm, Nat.div_mul by lia; reflexivity).
    destruct (Nat.eqb f 0 || Nat.eqb f 11)%bool eqn:E.
    + replace (Z.of_nat y - 1)%Z with (Z.of_nat n) by (destruct (Nat.eqb_spec f 0), (Nat.eqb_spec f 11); cbn in E; try discriminate E; lia). rr. field. apply not_0_IZR. destruct (Nat.eqb f 0), (Nat.eqb f 11); lia.
    + apply orb_false_iff in E as [E1 E2]. rewrite E1, E2 in N. cbv iota in N. replace (Z.of_nat y) with (Z.of_nat n) by lia. rr. field. apply not_0_IZR. lia.
  - intros g Hg. apply filter_In in Hg as [Hg M]. apply in_seq in Hg. apply Nat.eqb_eq in M. rewrite !Nat.sub_0_r. unfold l. rewrite !nth_exact by lia. unfold month_ratio. rewrite M.
    replace ((g - 1) mod 12)%nat with ((f + 11) mod 12)%nat by (rewrite <- M, Nat.add_mod_idemp_l by lia; replace (g + 11)%nat with (g - 1 + 1 * 12)%nat by lia; apply Nat.mod_add; lia).
    replace ((g + 1) mod 12)%nat with ((f + 1) mod 12)%nat by (rewrite <- M, Nat.add_mod_idemp_l by lia; reflexivity).
    pose proof (s_up (f + 11)). pose proof (s_up (f + 1)). rr. rewrite <- Rmult_plus_distr_l. apply ratio_scale. lra.
Qed.
Lemma ratio_pos f : (f < 12)%nat -> 0 < month_ratio s f.
Proof. intros F. unfold month_ratio. pose proof (s_up (f + 11)). pose proof (s_up (f + 1)). pose proof (S0 f F). apply Rdiv_lt_0_compat; lra. Qed.
Lemma some_low : exists f, (f < 12)%nat /\ month_ratio s f <= 150.
Proof.
  destruct (Rle_dec (month_ratio s 0) 150) as [H|N0]; [exists 0%nat; split; [lia|exact H]|].
  destruct (Rle_dec (month_ratio s 1) 150) as [H|N1]; [exists 1%nat; split; [lia|exact H]|].
  destruct (Rle_dec (month_ratio s 2) 150) as [H|N2]; [exists 2%nat; split; [lia|exact H]|].
  destruct (Rle_dec (month_ratio s 3) 150) as [H|N3]; [exists 3%nat; split; [lia|exact H]|].
  destruct (Rle_dec (month_ratio s 4) 150) as [H|N4]; [exists 4%nat; split; [lia|exact H]|].
  destruct (Rle_dec (month_ratio s 5) 150) as [H|N5]; [exists 5%nat; split; [lia|exact H]|].
  destruct (Rle_dec (month_ratio s 6) 150) as [H|N6]; [exists 6%nat; split; [lia|exact H]|].
  destruct (Rle_dec (month_ratio s 7) 150) as [H|N7]; [exists 7%nat; split; [lia|exact H]|].
  destruct (Rle_dec (month_ratio s 8) 150) as [H|N8]; [exists 8%nat; split; [lia|exact H]|].
  destruct (Rle_dec (month_ratio s 9) 150) as [H|N9]; [exists 9%nat; split; [lia|exact H]|].
  destruct (Rle_dec (month_ratio s 10) 150) as [H|N10]; [exists 10%nat; split; [lia|exact H]|].
  destruct (Rle_dec (month_ratio s 11) 150) as [H|N11]; [exists 11%nat; split; [lia|exact H]|]. exfalso.
  assert (B : forall f, (f < 12)%nat -> ~ month_ratio s f <= 150 -> 3 / 4 * (s ((f + 11) mod 12)%nat + s ((f + 1) mod 12)%nat) < s f).
  { intros f F N. unfold month_ratio in N. pose proof (s_up (f + 11)). pose proof (s_up (f + 1)). apply Rnot_le_lt in N. apply (Rmult_lt_compat_r (s ((f + 11) mod 12)%nat + s ((f + 1) mod 12)%nat)) in N; [|lra]. unfold Rdiv in N. rewrite Rmult_assoc, Rinv_l in N by lra. lra. }
  pose proof (B 0%nat ltac:(lia) N0). pose proof (B 1%nat ltac:(lia) N1). pose proof (B 2%nat ltac:(lia) N2). pose proof (B 3%nat ltac:(lia) N3). pose proof (B 4%nat ltac:(lia) N4). pose proof (B 5%nat ltac:(lia) N5).
  pose proof (B 6%nat ltac:(lia) N6). pose proof (B 7%nat ltac:(lia) N7). pose proof (B 8%nat ltac:(lia) N8). pose proof (B 9%nat ltac:(lia) N9). pose proof (B 10%nat ltac:(lia) N10). pose proof (B 11%nat ltac:(lia) N11).
  cbn in *. pose proof (S0 0 ltac:(lia)). pose proof (S0 1 ltac:(lia)). pose proof (S0 2 ltac:(lia)). pose proof (S0 3 ltac:(lia)). pose proof (S0 4 ltac:(lia)). pose proof (S0 5 ltac:(lia)).
  pose proof (S0 6 ltac:(lia)). pose proof (S0 7 ltac:(lia)). pose proof (S0 8 ltac:(lia)). pose proof (S0 9 ltac:(lia)). pose proof (S0 10 ltac:(lia)). pose proof (S0 11 ltac:(lia)). lra.
Qed.
Lemma fold_max (g : nat -> R) fs x : let r := fold_left (fun x f => fmax reals x (g f)) fs x in x <= r /\ (forall f, In f fs -> g f <= r) /\ (r = x \/ exists f, In f fs /\ r = g f).
Proof.
  revert x. induction fs as [|f fs IH]; intros x; cbv zeta; cbn [fold_left]; [split; [lra|split; [intros ? []|left; reflexivity]]|].
  destruct (IH (fmax reals x (g f))) as (A & B & C). assert (E : x <= fmax reals x (g f) /\ g f <= fmax reals x (g f) /\ (fmax reals x (g f) = x \/ fmax reals x (g f) = g f)) by (unfold fmax; rr; unfold r_lt; destruct (Rlt_dec x (g f)); lra).
  destruct E as (E1 & E2 & E3). split; [lra|]. split; [intros h [<-|H]; [lra|apply B, H]|]. destruct C as [C|(h & Hh & C)]; [|right; exists h; split; [right; exact Hh|exact C]].
  rewrite C. destruct E3 as [E3|E3]; [left; exact E3|right; exists f; split; [left; reflexivity|exact E3]].
Qed.
Lemma fold_min (g : nat -> R) fs x : let r := fold_left (fun x f => fmin reals x (g f)) fs x in r <= x /\ (forall f, In f fs -> r <= g f) /\ (r = x \/ exists f, In f fs /\ r = g f).
Proof.
  revert x. induction fs as [|f fs IH]; intros x; cbv zeta; cbn [fold_left]; [split; [lra|split; [intros ? []|left; reflexivity]]|].
  destruct (IH (fmin reals x (g f))) as (A & B & C). assert (E : fmin reals x (g f) <= x /\ fmin reals x (g f) <= g f /\ (fmin reals x (g f) = x \/ fmin reals x (g f) = g f)) by (unfold fmin; rr; unfold r_lt; destruct (Rlt_dec (g f) x); lra).
  destruct E as (E1 & E2 & E3). split; [lra|]. split; [intros h [<-|H]; [lra|apply B, H]|]. destruct C as [C|(h & Hh & C)]; [|right; exists h; split; [right; exact Hh|exact C]].
  rewrite C. destruct E3 as [E3|E3]; [left; exact E3|right; exists f; split; [left; reflexivity|exact E3]].
Qed.
Lemma months_test eps : test_of 12 eps l 0 = true <-> exists m m', (m < 12)%nat /\ (m' < 12)%nat /\ eps < month_ratio s m - month_ratio s m'.
Proof.
  change (test_of 12 eps l 0) with (r_lt eps (Rabs (fold_left (fun x f => fmax reals x (ti f)) (seq 0 12) 0 - fold_left (fun x f => fmin reals x (ti f)) (seq 0 12) 150))).
  destruct (fold_max ti (seq 0 12) 0) as (A & B & C). destruct (fold_min ti (seq 0 12) 150) as (A' & B' & C'). set (hi := fold_left (fun x f => fmax reals x (ti f)) _ _) in *. set (lo := fold_left (fun x f => fmin reals x (ti f)) _ _) in *.
  assert (T : forall f, In f (seq 0 12) -> (f < 12)%nat /\ ti f = month_ratio s f) by (intros f H; apply in_seq in H; split; [lia|apply ti_ratio; lia]).
  assert (T' : forall f, (f < 12)%nat -> In f (seq 0 12)) by (intros f H; apply in_seq; lia).
  assert (Hh : exists m, (m < 12)%nat /\ hi = month_ratio s m).
  { destruct C as [C|(f & Hf & C)]; [|exists f; destruct (T f Hf) as [T1 T2]; split; [exact T1|rewrite C; exact T2]]. exfalso. pose proof (B 0%nat (T' 0%nat ltac:(lia))) as G. rewrite ti_ratio in G by lia. pose proof (ratio_pos 0 ltac:(lia)). lra. }
  assert (Hl : exists m, (m < 12)%nat /\ lo = month_ratio s m).
  { destruct C' as [C'|(f & Hf & C')]; [|exists f; destruct (T f Hf) as [T1 T2]; split; [exact T1|rewrite C'; exact T2]]. destruct some_low as (f & F & L). exists f. split; [exact F|]. pose proof (B' f (T' f F)) as G. rewrite ti_ratio in G by exact F. lra. }
  assert (P : lo <= hi). { pose proof (B 0%nat (T' 0%nat ltac:(lia))). pose proof (B' 0%nat (T' 0%nat ltac:(lia))). lra. }
  rewrite Rabs_right by lra. unfold r_lt. destruct (Rlt_dec eps (hi - lo)) as [D|D]; split; intros E; try reflexivity; try discriminate E.
  - destruct Hh as (m & M & Hm), Hl as (m' & M' & Hm'). exists m, m'. split; [exact M|]. split; [exact M'|]. lra.
  - exfalso. apply D. destruct E as (m & m' & M & M' & E). pose proof (B m (T' m M)) as G. pose proof (B' m' (T' m' M')) as G'. rewrite ti_ratio in G by exact M. rewrite ti_ratio in G' by exact M'. lra.
Qed.
End Months.
