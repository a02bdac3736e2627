(** Consequences of the evaluation theorem: strict expressions, lags of whole expressions. *)
From Coq Require Import ZArith Ascii String List Bool Lia.
From Verif Require Import M_Base M_Time M_Names M_Lex M_Compile M_Bytes M_Exec S_Lec S_Eval S_Law
  L_Names L_Compile L_Compile2 L_Compile3 L_Bytes L_Link L_Exec L_Exec2 L_Eval.
Import ListNotations.
Open Scope Z_scope.
Local Arguments Z.add : simpl never.
Local Arguments Z.sub : simpl never.
Local Arguments Z.mul : simpl never.
Local Arguments Z.of_nat : simpl never.

Lemma forallb_zip_intro {X Y} (f : X -> Y -> bool) l : forall m,
  (forall i x y, nth_error l i = Some x -> nth_error m i = Some y -> f x y = true) -> forallb (fun b => b) (zip f l m) = true.
Proof.
  induction l as [|x l IH]; intros [|y m] H; cbn; auto. rewrite (H 0%nat x y) by reflexivity. apply IH.
  intros i a b Ha Hb. apply (H (S i)); assumption.
Qed.
Lemma nth_combine {X Y} (l : list X) : forall (m : list Y) i z, nth_error (combine l m) i = Some z ->
  nth_error l i = Some (fst z) /\ nth_error m i = Some (snd z).
Proof.
  induction l as [|x l IH]; intros [|y m] [|i] z H; cbn in *; try discriminate.
  - injection H as <-. auto.
  - auto.
Qed.

Lemma strict_steady_shape e : shape e -> strict e = true -> forall p ms, steady p ms e = true.
Proof.
  induction e using ex_ind2; intros R S p ms; cbn [strict shape] in *; try discriminate.
  - reflexivity.
  - cbn [steady]. auto.
  - cbn [steady]. apply IHe; tauto.
  - destruct f as [f|f|f]; try discriminate. apply andb_true_iff in S. destruct S as [S1 S2].
    rewrite steady_pre. cbn [roles repeat combine zip forallb ok_arg]. rewrite IHe by tauto.
    apply negb_true_iff in S1. rewrite S1. rewrite !andb_true_r. cbn [andb negb orb].
    destruct R as (_ & R). destruct f; try discriminate S1; try reflexivity; cbn in R; lia.
  - destruct f as [f|f|f]; try discriminate. rewrite !andb_true_iff in S. destruct S as [[S1 S2] S3].
    destruct R as (R1 & _). apply shape_all in R1. apply negb_true_iff in S1. apply negb_true_iff in S2.
    rewrite steady_app. apply andb_true_iff. split.
    + destruct f; try reflexivity; discriminate.
    + apply forallb_zip_intro. intros i e [m r] He Hr. apply nth_combine in Hr. cbn [fst snd] in Hr. destruct Hr as [_ Hr].
      cbn [roles] in Hr. rewrite S1 in Hr.
      assert (Q : exists q, r = Now q false).
      { destruct i as [|i]; cbn in Hr; [injection Hr as <-; eauto|]. apply nth_error_In, repeat_spec in Hr. eauto. }
      destruct Q as [q ->]. cbn [ok_arg negb orb]. rewrite andb_true_r. apply nth_error_In in He.
      rewrite Forall_forall in *. rewrite forallb_forall in S3. auto.
  - cbn [steady]. apply andb_true_iff in S. destruct S. rewrite IHe1, IHe2 by tauto. reflexivity.
Qed.

Lemma strict_steady e : reading e -> strict e = true -> forall p ms, steady p ms e = true.
Proof. intros R. apply strict_steady_shape, reading_shape, R. Qed.

(** ** Suffixes *)
Lemma value_sfx A E rb curt sfx : forall ms e t,
  value A E rb curt ms (fold_left ESfx sfx e) t = value A E rb curt (sfx ++ ms) e t.
Proof.
  induction sfx as [|s l IH] using rev_ind; intros ms e t; [reflexivity|].
  rewrite fold_left_app. cbn [fold_left value]. rewrite IH, <- app_assoc. reflexivity.
Qed.
Lemma fits_sfx A (E : env A) rb sfx : forall ms e,
  S_Eval.fits E rb ms (fold_left ESfx sfx e) = S_Eval.fits E rb (sfx ++ ms) e.
Proof.
  induction sfx as [|s l IH] using rev_ind; intros ms e; [reflexivity|].
  rewrite fold_left_app. cbn [fold_left S_Eval.fits]. rewrite IH, <- app_assoc. reflexivity.
Qed.
Lemma steady_sfx sfx : forall p ms e, steady p ms (fold_left ESfx sfx e) = steady p (sfx ++ ms) e.
Proof.
  induction sfx as [|s l IH] using rev_ind; intros p ms e; [reflexivity|].
  rewrite fold_left_app. cbn [fold_left steady]. rewrite IH, <- app_assoc. reflexivity.
Qed.
Lemma size_sfx sfx : forall e, size (fold_left ESfx sfx e) = size e.
Proof. induction sfx as [|s l IH] using rev_ind; intros e; [reflexivity|]. rewrite fold_left_app. cbn. apply IH. Qed.
Lemma level_sfx sfx : forall e, level e = 9 -> level (fold_left ESfx sfx e) = 9.
Proof. induction sfx as [|s l IH]; intros e H; [exact H|]. cbn [fold_left]. apply IH. reflexivity. Qed.
Lemma reading_sfx sfx : forall e, reading e -> level e = 9 -> reading (fold_left ESfx sfx e).
Proof. induction sfx as [|s l IH]; intros e R H; [exact R|]. cbn [fold_left]. apply IH; [cbn; auto|reflexivity]. Qed.
Lemma written_sfx sfx : forall e, written (fold_left ESfx sfx e) = written e ++ flat_map sfx_tokens sfx.
Proof.
  induction sfx as [|s l IH]; intros e; cbn [fold_left flat_map]; [symmetry; apply app_nil_r|].
  rewrite IH. cbn [written]. rewrite <- app_assoc. reflexivity.
Qed.

(** ** Lag of a whole expression *)
Definition same {X} (r r' : res X) : Prop := forall v v', r = Ok v -> r' = Ok v' -> v = v'.
Lemma same_eq {X} (r r' : res X) : r = r' -> same r r'.
Proof. intros -> v v'. congruence. Qed.
Lemma same_bind {X Y} (r r' : res X) (k k' : X -> res Y) : same r r' -> (forall x, same (k x) (k' x)) ->
  same (rbind r k) (rbind r' k').
Proof.
  intros H K v v' V V'. destruct r as [x| |]; try discriminate. destruct r' as [x'| |]; try discriminate.
  rewrite (H x x') in V by reflexivity. apply (K x' v v'); assumption.
Qed.
Lemma same_bind2 {X Y Z} (r : res X) (r' : res Y) (k : X -> res Z) (k' : Y -> res Z) (R : X -> Y -> Prop) :
  (forall x y, r = Ok x -> r' = Ok y -> R x y) -> (forall x y, R x y -> same (k x) (k' y)) -> same (rbind r k) (rbind r' k').
Proof.
  intros H K v v' V V'. destruct r as [x| |]; try discriminate. destruct r' as [y| |]; try discriminate.
  apply (K x y (H x y eq_refl eq_refl) v v'); assumption.
Qed.
Lemma same_mapM {X Y Z} (f : X -> res Z) (g : Y -> res Z) l : forall m, Forall2 (fun x y => same (f x) (g y)) l m ->
  same (mapM f l) (mapM g m).
Proof.
  intros m H. induction H as [|x y l m Hx H IH]; [apply same_eq; reflexivity|].
  cbn [mapM]. apply same_bind; [exact Hx|]. intros v. apply same_bind; [exact IH|]. intros w. apply same_eq. reflexivity.
Qed.

Section Lag.
Context (A : arith) (E : env A) (rb : str -> list Z) (c c' k : Z) (neg : bool).
Let d := if neg then - k else k.
Let s := SLag neg k.
Notation F := (F A).

Lemma placed_lags ms : forallb is_lag ms = true -> exists lag, forall ext, placed (ms ++ ext) = fold_left place ext (lag, None).
Proof.
  intros H. unfold placed. assert (G : forall l0, exists lag, fold_left place ms (l0, None) = (lag, None)).
  { induction ms as [|[n z|p] ms IH]; intros l0; cbn in *; try discriminate; eauto. }
  destruct (G 0) as [lag G']. exists lag. intros ext. rewrite fold_left_app, G'. reflexivity.
Qed.

Lemma leaf_lag l ms t : timeless_leaf l = true -> forallb is_lag ms = true ->
  same (leaf_value A E rb c (ms ++ [s]) l t) (leaf_value A E rb c' ms l (t + d)).
Proof.
  intros T L. destruct l; cbn [leaf_value timeless_leaf] in *; try (apply same_eq; reflexivity); try discriminate T.
  - destruct (placed_lags ms L) as [lag P]. rewrite P. specialize (P []). rewrite app_nil_r in P. rewrite P. cbn.
    apply same_eq. destruct (var_at E name); [|reflexivity]. f_equal. f_equal. unfold d. destruct neg; lia.
  - destruct v; try discriminate; apply same_eq; reflexivity.
Qed.

Lemma Forall2_firstn_rel {X Y} (R : X -> Y -> Prop) n l m : Forall2 R l m -> Forall2 R (firstn n l) (firstn n m).
Proof. intros H. revert n. induction H; intros [|n]; cbn; constructor; auto. Qed.
Lemma Forall2_nth_rel {X Y} (R : X -> Y -> Prop) l m x y : Forall2 R l m -> R x y -> forall n, R (nth n l x) (nth n m y).
Proof. intros H D. induction H; intros [|n]; cbn; auto. Qed.
Lemma Forall2_len_eq {X Y} (R : X -> Y -> Prop) l m : Forall2 R l m -> length l = length m.
Proof. induction 1; cbn; congruence. Qed.

Definition shifted (g g' : Z -> res F) : Prop := forall t, same (g t) (g' (t + d)).

Lemma over_lag g g' js agg : shifted g g' -> same (over A g js agg) (over A g' (map (fun j => j + d) js) agg).
Proof.
  intros G. unfold over. apply same_bind; [|intros v; apply same_eq; reflexivity].
  apply same_mapM. induction js; constructor; [apply G|assumption].
Qed.
Lemma i32_ok z y : i32 z = Ok y -> y = z.
Proof. unfold i32. destruct (_ && _); congruence. Qed.

Lemma tfn_lag f args g g' t : relative f = true -> shifted g g' ->
  same (tfn_value A f args g t) (tfn_value A f args g' (t + d)).
Proof.
  intros T G.
  assert (Two : forall h : F -> F -> res F, same
     (do lag <- the_lag A args; do u <- i32 (t - lag); do x <- g t; do y <- g u; h x y)
     (do lag <- the_lag A args; do u <- i32 (t + d - lag); do x <- g' (t + d); do y <- g' u; h x y)).
  { intros h. apply same_bind; [apply same_eq; reflexivity|]. intros lag.
    apply (same_bind2 _ _ _ _ (fun u v => v = u + d)).
    { intros x y Hx Hy. apply i32_ok in Hx. apply i32_ok in Hy. lia. }
    intros u v ->. apply same_bind; [apply G|]. intros x. apply same_bind; [apply G|]. intros y. apply same_eq. reflexivity. }
  destruct f; try discriminate T; cbn [tfn_value]; try apply Two.
  - apply same_bind; [apply same_eq; reflexivity|]. intros lag. apply (same_bind2 _ _ _ _ (fun u v => v = u + d)).
    { intros x y Hx Hy. apply i32_ok in Hx. apply i32_ok in Hy. lia. }
    intros u v ->. apply G.
  - apply same_bind; [apply same_eq; reflexivity|]. intros lag. cbv zeta.
    apply (same_bind2 _ _ _ _ (fun u v => True)); [auto|]. intros _ _ _.
    replace (map (fun j => t + d - j) (seqZ 0 (Z.to_nat (Z.max lag 1))))
      with (map (fun j => j + d) (map (fun j => t - j) (seqZ 0 (Z.to_nat (Z.max lag 1))))).
    + apply over_lag. exact G.
    + rewrite map_map. apply map_ext. intros j. lia.
Qed.

Lemma apply_lag f subs subs' t :
  match f with FN _ => true | TFN f => relative f | MTFN _ => false end = true -> Forall2 shifted subs subs' ->
  same (apply A E f subs t) (apply A E f subs' (t + d)).
Proof.
  intros T G. unfold apply. rewrite <- (Forall2_len_eq _ _ _ G). apply same_bind.
  - apply same_mapM. apply (Forall2_firstn_rel _ (length subs - bodies f)) in G. revert G. generalize (firstn (length subs - bodies f) subs).
    generalize (firstn (length subs - bodies f) subs'). intros l' l G. induction G; constructor; auto.
  - intros vs. destruct f as [f|f|f]; [apply same_eq; reflexivity| |discriminate].
    apply tfn_lag; [exact T|]. apply Forall2_nth_rel; [exact G|]. intros u v v' Q. discriminate.
Qed.

Lemma map_repeat' {X Y} (f : X -> Y) x n : map f (repeat x n) = repeat (f x) n.
Proof. induction n; cbn; congruence. Qed.
Lemma mods_lag ms sfx n : mods (ms ++ [s]) sfx n = map (fun m => m ++ [s]) (mods ms sfx n).
Proof. unfold mods. rewrite map_app, map_repeat'. cbn. rewrite app_assoc. reflexivity. Qed.

Lemma value_lag e : timeless e = true -> forall ms t, forallb is_lag ms = true ->
  same (value A E rb c (ms ++ [s]) e t) (value A E rb c' ms e (t + d)).
Proof.
  induction e using ex_ind2; intros T ms t L; cbn [timeless value] in *.
  - apply leaf_lag; assumption.
  - auto.
  - apply andb_true_iff in T. destruct T as [T1 T2]. change (s0 :: ms ++ [s]) with ((s0 :: ms) ++ [s]). apply IHe; [exact T2|].
    cbn. rewrite T1. exact L.
  - apply andb_true_iff in T. destruct T as [T1 T2]. apply apply_lag; [exact T1|]. constructor; [|constructor].
    intros u. auto.
  - rewrite !andb_true_iff in T. destruct T as [[T1 T2] T3]. apply apply_lag; [exact T1|]. rewrite mods_lag.
    assert (Lm : Forall (fun m => forallb is_lag m = true) (mods ms sfx (length args))).
    { unfold mods. apply Forall_app. split; [apply Forall_forall; intros m I; apply repeat_spec in I; subst; exact L|].
      constructor; [|constructor]. rewrite forallb_app, T2, L. reflexivity. }
    revert Lm. generalize (mods ms sfx (length args)). rewrite forallb_forall in T3. rewrite Forall_forall in H.
    induction args as [|e l IH]; intros [|m ml] Lm; cbn [zip map]; try constructor.
    + inversion Lm; subst. intros u. apply H; [left; reflexivity|apply T3; left; reflexivity|assumption].
    + inversion Lm; subst. apply IH; auto. * intros x I. apply H. right. exact I. * intros x I. apply T3. right. exact I.
  - apply andb_true_iff in T. destruct T. apply same_bind; [auto|]. intros x. apply same_bind; [auto|]. intros y. apply same_eq. reflexivity.
Qed.

Lemma timeless_no_mtfn e : timeless e = true -> no_mtfn e = true.
Proof.
  induction e using ex_ind2; cbn [timeless no_mtfn]; intros T; auto.
  - apply andb_true_iff in T. tauto.
  - apply andb_true_iff in T. destruct T as [T1 T2]. rewrite IHe by exact T2. destruct f; auto.
  - rewrite !andb_true_iff in T. destruct T as [[T1 T2] T3]. apply andb_true_iff. split; [destruct f; auto|].
    rewrite forallb_forall in *. rewrite Forall_forall in H. auto.
  - apply andb_true_iff in T. destruct T. rewrite IHe1, IHe2 by assumption. reflexivity.
Qed.
End Lag.

(** ** Windows *)
Lemma mapM_Forall2 {X Y} (f : X -> res Y) l vs : Forall2 (fun x v => f x = Ok v) l vs -> mapM f l = Ok vs.
Proof. induction 1 as [|x v l vs H K IH]; [reflexivity|]. cbn [mapM]. rewrite H. cbn [rbind]. rewrite IH. reflexivity. Qed.
Lemma Forall2_length' {X Y} (R : X -> Y -> Prop) l m : Forall2 R l m -> length l = length m.
Proof. induction 1; cbn; congruence. Qed.
Lemma i32_in z : -2147483648 <= z <= 2147483647 -> i32 z = Ok z.
Proof. intros H. unfold i32. replace ((-2147483648 <=? z) && (z <=? 2147483647)) with true; [reflexivity|]. symmetry. apply andb_true_iff. split; apply Z.leb_le; lia. Qed.
Lemma seqZ_length n : forall a, length (seqZ a n) = n.
Proof. induction n; intros a; cbn; congruence. Qed.
Lemma tfn_window A f args sub t from to vs : windowed f = true ->
  bounds A args t = Ok (from, to) -> from <= to -> -2147483648 < from -> to < 2147483647 -> to - from < 2147483647 ->
  Forall2 (fun p v => sub p = Ok v) (seqZ from (Z.to_nat (to - from + 1))) vs ->
  tfn_value A f args sub t = Ok (aggregate A f vs).
Proof.
  intros W B L1 L2 L3 L4 V. pose proof (Forall2_length' _ _ _ V) as Len. rewrite seqZ_length in Len.
  pose proof (mapM_Forall2 _ _ _ V) as M.
  destruct f; try discriminate W; cbn [tfn_value]; rewrite B; cbn [rbind];
    rewrite !i32_in by lia; cbn [rbind];
    (replace (to - from + 1 <? 1) with false by (symmetry; apply Z.ltb_ge; lia));
    unfold over; rewrite M; cbn [rbind]; unfold aggregate, all_num; try reflexivity.
  unfold sum_of. rewrite <- Len, Z2Nat.id by lia. destruct (forallb _ _); reflexivity.
Qed.
