(** The properties of a simulation. *)
From Coq Require Import ZArith List Bool Lia Permutation QArith Qcanon.
From Verif Require Import M_Base M_Names M_Bytes M_Exec M_Exact M_Order M_Exo2endo M_Vars M_Simul S_Order S_Exo2endo S_Simul
  L_Order L_Order2 L_Order3 L_Order4 L_Order5 L_Exo L_Exo2 L_Exo3 L_Simul L_Simul2 L_Simul3 L_Simul4.
Import ListNotations.
Open Scope Z_scope.

Lemma part_incl o a b : incl (part o a b) (o_order o).
Proof.
  intros e H. unfold part in H. rewrite <- (firstn_skipn (Z.to_nat a) (o_order o)). apply in_app_iff. right.
  rewrite <- (firstn_skipn (Z.to_nat b) (skipn (Z.to_nat a) (o_order o))). apply in_app_iff. now left.
Qed.

Lemma NoDup_app_split {X} (a b : list X) : NoDup (a ++ b) -> NoDup a /\ NoDup b /\ forall x, In x a -> ~ In x b.
Proof.
  induction a as [|x a IH]; cbn; intros H; [repeat split; auto; constructor|]. inversion H as [|? ? H1 H2]; subst.
  destruct (IH H2) as (A & B & C). rewrite in_app_iff in H1. repeat split; auto; [constructor; tauto|].
  intros y [<-|Hy]; [tauto|now apply C].
Qed.

(** * C41 *)

Section Frame.
Variable A : arith.
Variable Q : eqns A.
Variable P : params A.
Variable m : model.
Variable o : ordering.

Lemma period_only key t s xk norm : only A (endos (endo m) t (o_order o)) s (r_s (simulate_period A Q P m o key t s xk norm)).
Proof.
  unfold simulate_period. eapply only_weaken; [|apply sub_simulate_only]. intros v p. apply endos_incl.
  intros e H. rewrite !in_app_iff in H. destruct H as [H|[H|H]]; eapply part_incl; eauto.
Qed.
Lemma copy_only nb t exos : forall s, only A (fun v p => t < p < nb /\ In v exos) s (copy_forward A nb t exos s).
Proof.
  assert (G : forall k s, incl k exos -> only A (fun v p => t < p < nb /\ In v exos) s (copy_forward A nb t k s));
    [|intros s; apply G, incl_refl].
  induction k as [|x k IH]; intros s I; [apply only_refl|]. unfold copy_forward. cbn [fold_left].
  eapply only_trans; [|apply IH; intros y Hy; apply I; now right].
  intros v p. destruct (Z.eqb_spec v x) as [->|]; cbn; [|now right].
  destruct (Z.ltb_spec t p), (Z.ltb_spec p nb); cbn; auto. left. split; [lia|]. apply I. now left.
Qed.
Lemma periods_only nb exos keys n : forall t s xk norm,
  only A (fun v p => (t <= p < t + Z.of_nat n /\ exists e, In e (o_order o) /\ v = endo m e) \/ (t < p < nb /\ In v exos))
    s (fst (periods A Q P m o nb exos keys n t s xk norm)).
Proof.
  induction n as [|n IH]; intros t s xk norm; [apply only_refl|]. cbn [periods].
  assert (O := period_only (keys t) t s xk norm).
  set (r := simulate_period A Q P m o (keys t) t s xk norm) in *.
  assert (O' : only A (fun v p => (t <= p < t + Z.of_nat (S n) /\ exists e, In e (o_order o) /\ v = endo m e) \/ (t < p < nb /\ In v exos)) s (r_s r)).
  { eapply only_weaken; [|exact O]. intros v p [-> H]. left. split; [lia|exact H]. }
  destruct (r_stop r); try exact O'.
  eapply only_trans; [exact O'|]. eapply only_trans; [eapply only_weaken; [|apply copy_only]; intros v p H; right; exact H|].
  eapply only_weaken; [|apply IH]. intros v p [[H K]|[H K]]; [left; split; [lia|exact K]|right; split; [lia|exact K]].
Qed.
End Frame.

Lemma run_frame A f d j P vars scl eqs l given sort passes nb at_ bt n keys s norm s' ok :
  NoDup vars -> NoDup (map fst eqs) -> (sort = SORT_NONE -> given = [] \/ Permutation given (map fst eqs)) ->
  run A f d j P vars scl eqs l given sort passes nb at_ bt n keys s norm = Ok (s', ok) ->
  forall v p, s' v p = s v p \/
    (at_ <= p < at_ + Z.of_nat n /\ exists m k, built vars scl eqs l m /\ endo_of m k v) \/
    (at_ < p < nb /\ exists c, In c l /\ v = pos_of vars (snd c)).
Proof.
  intros NV NE Hs. unfold run. destruct eqs as [|q eqs]; [intros H; inversion H; auto|]. set (D := q :: eqs) in *. clearbody D. clear q eqs.
  destruct (_ || _); [intros H; inversion H; auto|].
  destruct (link_model vars scl D) as [[m0|]| |] eqn:E1; try discriminate; cbn [rbind]; [|intros H; inversion H; auto].
  destruct (exchanges vars (map fst D) m0 l) as [[m|]| |] eqn:E2; try discriminate; cbn [rbind]; [|intros H; inversion H; auto].
  destruct (order m (map fst D) given sort passes) as [o| |] eqn:E3; try discriminate; cbn [rbind].
  intros H. inversion H as [H1]. clear H. intros v p.
  assert (B : built vars scl D l m) by (split; [exact NV|split; [exact NE|eauto]]).
  assert (S : sorted D m given sort o) by (split; eauto).
  destruct (built_linked _ _ _ _ _ B) as (L & _). destruct (sorted_order _ _ _ _ _ _ _ _ B S) as (Pm & _).
  unfold simulate in H1.
  assert (O := periods_only A (equations_of A f d j vars D) P m o nb (map (fun c => pos_of vars (snd c)) l) keys n at_ s
     (map (fun _ => ofZ A 0) (part o (o_pre o) (o_inter o))) norm).
  rewrite H1 in O. cbn [fst] in O. destruct (O v p) as [[[K (e & He & ->)]|[K K']]|K]; [| |now left].
  - right. left. split; [exact K|]. apply (order_in m o Pm) in He as (k & -> & Hk). exists m, k. split; [exact B|].
    now apply endo_spec.
  - right. right. split; [exact K|]. apply in_map_iff in K' as (c & <- & Hc). eauto.
Qed.

(** Without exchanges the endogenous variables have the names of the equations. *)
Lemma run_frame_plain A f d j P vars scl eqs given sort passes nb at_ bt n keys s norm s' ok :
  NoDup vars -> NoDup (map fst eqs) -> (sort = SORT_NONE -> given = [] \/ Permutation given (map fst eqs)) ->
  run A f d j P vars scl eqs [] given sort passes nb at_ bt n keys s norm = Ok (s', ok) ->
  forall v p, s' v p <> s v p -> at_ <= p < at_ + Z.of_nat n /\ exists name, In name (map fst eqs) /\ v = pos_of vars name.
Proof.
  intros NV NE Hs H v p Hd.
  destruct (run_frame A f d j P vars scl eqs [] given sort passes nb at_ bt n keys s norm s' ok NV NE Hs H v p) as [E|[(K & m & k & B & E)|(_ & c & [] & _)]];
    [easy|]. split; [exact K|]. destruct (built_linked _ _ _ _ _ B) as (_ & _ & _ & m0 & G & _ & _ & Em). specialize (Em eq_refl). subst m0.
  apply (endo_names vars eqs m G) in E as (name & ns & Hn & ->). exists name. split; [|reflexivity].
  apply in_map_iff. exists (name, ns). split; [reflexivity|]. now apply nth_error_In in Hn.
Qed.

(** It always ends: no undefined access. *)
Lemma run_defined A f d j P vars scl eqs l given sort passes nb at_ bt n keys s norm :
  NoDup vars -> NoDup (map fst eqs) -> (sort = SORT_NONE -> given = [] \/ Permutation given (map fst eqs)) ->
  run A f d j P vars scl eqs l given sort passes nb at_ bt n keys s norm <> UB.
Proof.
  intros NV NE Hs. unfold run. destruct eqs as [|q eqs]; [discriminate|]. set (D := q :: eqs) in *. clearbody D. clear q eqs.
  destruct (_ || _); [discriminate|].
  destruct (link_model_ok vars scl D NV NE) as (r & E & _). rewrite E. cbn [rbind]. destruct r as [m0|]; [|discriminate].
  destruct (exchanges_distinct vars scl D m0 l NV NE E) as [H _].
  destruct (exchanges vars (map fst D) m0 l) as [[m|]| |] eqn:E2; try discriminate; [|easy]. cbn [rbind].
  assert (B : built vars scl D l m) by (split; [exact NV|split; [exact NE|eauto]]).
  destruct (built_linked _ _ _ _ _ B) as (L & Lo & _ & m1 & G & Eo & M & _).
  assert (Ds : sort = SORT_NONE \/ sort <> SORT_NONE) by (destruct sort; [right|right|left]; congruence).
  destruct Ds as [->|Ds].
  - destruct (order_c37 D m1 (map fst D) given SORT_NONE passes NE M) as (o & E3 & _); [auto|].
    assert (E4 : order m (map fst D) given SORT_NONE passes = Ok o) by (rewrite <- E3; unfold order, nb_eqs; now rewrite Eo).
    rewrite E4. cbn [rbind]. discriminate.
  - destruct (order_permutation m (map fst D) given sort passes L Ds) as (o & E3 & _). rewrite E3. cbn [rbind]. discriminate.
Qed.

(** * C40 *)

Section Blocks.
Variables (vars scl : list str) (eqs : list (str * list str)) (l : list (str * str)).
Variable m : model.
Variables (given : list str) (sort : sort_option) (o : ordering).
Hypothesis HB : built vars scl eqs l m.
Hypothesis HS : sorted eqs m given sort o.
Notation pre := (part o 0 (o_pre o)).
Notation inter := (part o (o_pre o) (o_inter o)).
Notation post := (part o (o_pre o + o_inter o) (o_post o)).

Lemma blocks_nodup : NoDup (map (endo m) (pre ++ inter ++ post)).
Proof.
  destruct (sorted_order _ _ _ _ _ _ _ _ HB HS) as (Pm & B1 & B2 & B3 & Bs & _).
  rewrite (parts_app m o Pm B1 B2 Bs). apply endos_nodup; [apply (built_linked _ _ _ _ _ HB)|exact Pm].
Qed.
Lemma inter_nodup : NoDup (map (endo m) inter).
Proof.
  assert (N := blocks_nodup). rewrite !map_app in N. apply NoDup_app_split in N as (_ & N & _). now apply NoDup_app_split in N as (N & _).
Qed.
Lemma in_inter e : interdependent o e -> In (Z.of_nat e) inter.
Proof.
  destruct (sorted_order _ _ _ _ _ _ _ _ HB HS) as (Pm & B1 & B2 & B3 & Bs & _).
  intros (r & Hr & Hb). apply (part_in m o Pm); try lia. eauto.
Qed.
End Blocks.

Lemma period_iters A Q P m o key t s xk norm : (r_iters (simulate_period A Q P m o key t s xk norm) <= maxit P)%nat.
Proof.
  unfold simulate_period, sub_simulate. set (s1 := solve_block _ _ _ _ _ _ _).
  assert (H := iterate_iters A Q P (endo m) t (part o (o_pre o) (o_inter o)) key (maxit P) 0 s1 xk norm).
  destruct iterate as [[it i] why]. cbn [fst] in H. destruct why; try exact H. now destruct diverge as [[? ?] ?].
Qed.

Lemma period_fixed f d j (P : params exactly) vars scl eqs l m given sort o key t s xk norm :
  built vars scl eqs l m -> sorted eqs m given sort o -> reads_only m f -> l = [] \/ own_inside eqs ->
  tiny P = q_tiny -> (eps P < q_ofZ 10)%Qc ->
  let Q := equations_of exactly f d j vars eqs in
  let r := simulate_period exactly Q P m o key t s xk norm in
  r_stop r = CONVERGED ->
  forall e v, interdependent o e -> endo_of m e v ->
    num exactly (r_s r v t) = true /\
    near (eps P) (r_s r v t) (one_more Q P (endo m) t (block o (o_pre o) (o_inter o)) (r_s r) v t).
Proof.
  intros HB HS HR HO T He Q r Hc e v Hi Hv.
  assert (E : v = endo m (Z.of_nat e)).
  { unfold endo. rewrite Nat2Z.id. symmetry. now apply nth_error_nth. }
  rewrite E. clear E.
  destruct (converged exactly Q P (fun _ => True) (endo m) t (part o 0 (o_pre o)) (part o (o_pre o) (o_inter o)) (part o (o_pre o + o_inter o) (o_post o)) key s xk norm
     (inter_nodup vars scl eqs l m given sort o HB HS) Hc) as (s0 & xk0 & n0 & b & H1 & H2 & _ & H4 & H5).
  fold (simulate_period exactly Q P m o key t s xk norm) in H5. fold r in H5.
  apply (interdep_near Q P (outside m (part o (o_pre o + o_inter o) (o_post o))) (endo m) t (part o (o_pre o) (o_inter o)) xk0 s0 (r_s r) n0); auto.
  - apply (inter_readable exactly f d j vars scl eqs l m given sort o HB HS HR HO).
  - apply (inter_nodup vars scl eqs l m given sort o HB HS).
  - intros w p Hw. rewrite H5.
    destruct (solve_only exactly Q P (endo m) t (part o (o_pre o + o_inter o) (o_post o)) b w p) as [[-> (k & Hk & ->)]|E].
    + exfalso. apply Hw. now apply in_map.
    + rewrite E, H4. reflexivity.
  - now apply q_le_iff.
  - now apply (in_inter vars scl eqs l m given sort o HB HS).
Qed.
