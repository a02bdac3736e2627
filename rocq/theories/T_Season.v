(** C99: seasonal adjustment. *)
From Coq Require Import ZArith Ascii String List Bool Reals Lra Lia.
From Verif Require Import M_Base M_Names M_Exec M_Real M_Double M_Season S_Season L_Season L_Season2 L_Season3.
Import ListNotations.
Open Scope R_scope.

(** ** A level times factors *)
(** A series that is a level times factors with the mean 1, on whole years, is either left alone or taken apart exactly: the adjusted series
    and the trend are the level, the irregular component is 100. *)
Theorem C99_level : forall (p y : nat) (c : R) (s : nat -> R) (eps : R) (name : str),
  (2 <= p)%nat -> Nat.even p = true -> (3 <= y)%nat -> 0 < c -> (forall m, (m < p)%nat -> 0 < s m) -> mean_one p s ->
  season_series reals eps p name (seasonal_series p y c s) = Ok [(name, seasonal_series p y c s)] \/
  season_series reals eps p name (seasonal_series p y c s)
    = Ok [(name, repeat c (p * y)); (S2L "_C" ++ name, repeat c (p * y)); (S2L "_I" ++ name, repeat 100 (p * y))].
Proof. intros. apply exact_series; assumption. Qed.
Print Assumptions C99_level.
(** With months, the series is taken apart if and only if two months differ by more than the threshold, each against its neighbours. *)
Theorem C99_detected : forall (y : nat) (c : R) (s : nat -> R) (eps : R) (name : str),
  (3 <= y)%nat -> 0 < c -> (forall m, (m < 12)%nat -> 0 < s m) -> mean_one 12 s ->
  ((exists m m', (m < 12)%nat /\ (m' < 12)%nat /\ eps < month_ratio s m - month_ratio s m') ->
    season_series reals eps 12 name (seasonal_series 12 y c s)
      = Ok [(name, repeat c (12 * y)); (S2L "_C" ++ name, repeat c (12 * y)); (S2L "_I" ++ name, repeat 100 (12 * y))]) /\
  ((forall m m', (m < 12)%nat -> (m' < 12)%nat -> month_ratio s m - month_ratio s m' <= eps) ->
    season_series reals eps 12 name (seasonal_series 12 y c s) = Ok [(name, seasonal_series 12 y c s)]).
Proof.
  intros y c s eps name Y3 C0 S0 M1. rewrite (exact_test 12 y c s) by (assumption || reflexivity || lia). pose proof (months_test y c s Y3 C0 S0 eps) as T. split; intros H.
  - rewrite (proj2 T H). reflexivity.
  - destruct (test_of _ _ _ _) eqn:E; [|reflexivity]. destruct (proj1 T eq_refl) as (m & m' & M & M' & L). specialize (H m m' M M'). lra.
Qed.
Print Assumptions C99_detected.
(** Case: a December of 1.11, the other months 0.99. *)
Definition december (m : nat) : R := if Nat.eqb m 11 then 111 / 100 else 99 / 100.
Example C99_detected_case : mean_one 12 december /\ (forall m, (m < 12)%nat -> 0 < december m) /\ 5 < month_ratio december 11 - month_ratio december 0.
Proof.
  split; [unfold mean_one, december; cbn; lra|]. split.
  - intros m Hm. unfold december. destruct (Nat.eqb m 11); lra.
  - unfold month_ratio, december. cbn. lra.
Qed.
(** The factors are found, whatever the sign of the level and of the factors. *)
Theorem C99_factors : forall (p y : nat) (c : R) (s : nat -> R) (shift : R),
  (2 <= p)%nat -> Nat.even p = true -> (3 <= y)%nat -> c <> 0 -> (forall m, (m < p)%nat -> s m <> 0) -> mean_one p s ->
  exists v trend irregular season, DS_vec reals p y (fun f => nth f (seasonal_series p y c s) 0) shift = Ok (v, trend, irregular, season) /\
    (forall f, (f < p * y)%nat -> v f = c - shift /\ trend f = c - shift /\ irregular f = 100) /\ (forall m, (m < p)%nat -> season m = 100 * s m).
Proof.
  intros p y c s shift P2 Ev Y3 C0 S0 M1.
  destruct (DS_vec_h p y P2 Y3 Ev c (fun f => s (f mod p)%nat)) with (vec := fun f => nth f (seasonal_series p y c s) 0) (shift := shift) as (v & c1 & i1 & se & E & H & G).
  - exact C0.
  - intros f. apply S0. apply Nat.mod_upper_bound. lia.
  - apply (s_periodic p y); assumption.
  - apply (s_total p y); assumption.
  - intros f Hf. apply nth_exact; assumption.
  - exists v, c1, i1, se. split; [exact E|]. split; [exact H|]. intros m Hm. rewrite G, Nat.mod_small by exact Hm. reflexivity.
Qed.
Print Assumptions C99_factors.
(** Case: quarters with the factors 0.8, 1.2, 1.1, 0.9 around 50 for four years. *)
Definition quarters (m : nat) : R := nth m [8 / 10; 12 / 10; 11 / 10; 9 / 10] 1.
Example C99_level_case : mean_one 4 quarters /\ (forall m, (m < 4)%nat -> 0 < quarters m) /\ nth 5 (seasonal_series 4 4 50 quarters) 0 = 60.
Proof.
  split; [unfold mean_one, quarters; cbn; lra|]. split.
  - intros m Hm. do 4 (destruct m as [|m]; [unfold quarters; cbn; lra|]). lia.
  - unfold seasonal_series, quarters. cbn. lra.
Qed.

(** ** Units *)
(** In other units the same decision is taken and the same components are found, in those units. *)
Theorem C99_units : forall (k eps : R) (p : nat) (name : str) (l : list R),
  0 < k -> (forall x, In x l -> r_num x = true -> r_num (k * x) = true) ->
  same_in_units k (season_series reals eps p name l) (season_series reals eps p name (scaled k l)).
Proof. intros. apply units_series; assumption. Qed.
Print Assumptions C99_units.
Example C99_units_case : forall x, In x [r_na; 1; -2; 3] -> r_num x = true -> r_num (1000 * x) = true.
Proof.
  assert (P : 0 < 10 ^ 37) by (apply pow_lt; lra). assert (B : 10 ^ 6 < 10 ^ 37) by (apply Rlt_pow; [lra|lia]).
  intros x [<-|[<-|[<-|[<-|[]]]]] H; [rewrite r_num_na in H; discriminate H| | |]; unfold r_num; destruct (Rle_dec _ _) as [G|G]; try reflexivity; exfalso; apply G; lra.
Qed.

(** ** What does not hold *)
Definition d (z : Z) : F double := ofZ double z.
Definition variables_of (r : res (list (str * list (F double)))) : option nat := match r with Ok l => Some (length l) | _ => None end.
(** A constant has no season: with monthly data it is left alone; with ten years of quarters it is taken for a seasonal series, because the mean
    of the last quarter is divided by the number of the years and not, as for the last month (the test f == 11), by that number less one. And so are 47 months: the whole years then begin in December, and the test still takes January for their first month. *)
Theorem C99_constant_refuted : exists x,
  fst (fst (fst (fst (DS_test double (d 5) 12 (repeat (d 100) 120))))) = false /\
  fst (fst (fst (fst (DS_test double (d 5) 4 (repeat (d 100) 40))))) = true /\
  fst (fst (fst (fst (DS_test double (d 5) 12 (repeat (d 100) 47))))) = true /\
  x = season_series double (d 5) 4 (S2L "Q") (repeat (d 100) 40) /\ variables_of x = Some 3%nat.
Proof.
  assert (H : fst (fst (fst (fst (DS_test double (d 5) 4 (repeat (d 100) 40))))) = true) by (vm_compute; reflexivity).
  eexists. split; [vm_compute; reflexivity|]. split; [exact H|]. split; [vm_compute; reflexivity|]. split; [reflexivity|]. unfold season_series.
  destruct (DS_test double (d 5) 4 (repeat (d 100) 40)) as [[[[r l2] beg] dim] shift] eqn:E. cbn [fst] in H. subst r.
  assert (D : dim = 40%nat) by (apply (f_equal (fun z => snd (fst z))) in E; cbn [fst snd] in E; rewrite <- E; vm_compute; reflexivity). subst dim.
  reflexivity.
Qed.
Print Assumptions C99_constant_refuted.
(** A series without season is stored as it is: not when it has a negative value, then it is stored with the shift of the test; nor when its
    years are not whole, then the months before the first of its whole years (counted from the last value) are lost: here eleven. *)
Theorem C99_unchanged_refuted :
  season_series double (d 5) 12 (S2L "A") (repeat (d (-10)) 36) = Ok [(S2L "A", repeat (d 1) 36)] /\
  season_series double (d 5) 12 (S2L "A") (na double :: repeat (d 7) 47) = Ok [(S2L "A", repeat (na double) 12 ++ repeat (d 7) 36)].
Proof. split; vm_compute; reflexivity. Qed.
Print Assumptions C99_unchanged_refuted.
(** A seasonal series of two years: values before the first are read. *)
Theorem C99_two_years_refuted : season_series double (d 5) 4 (S2L "Q") [d 80; d 120; d 110; d 90; d 80; d 120; d 110; d 90] = UB.
Proof. vm_compute. reflexivity. Qed.
Print Assumptions C99_two_years_refuted.
(** An error in the arguments ends in the dereference of a null pointer: a file without the variable that is asked for. *)
Theorem C99_errors_refuted : season_start 1 false 0 true = UB /\ (forall loaded smpl, season_start 0 false loaded smpl = UB) /\ season_start 2 true 1 true = Ok 1%nat.
Proof. repeat split. Qed.
Print Assumptions C99_errors_refuted.
