(** Simulation of a linked and ordered model. *)
From Coq Require Import ZArith List Bool Lia Permutation.
From Verif Require Import M_Base M_Names M_Bytes M_Exec M_Order M_Exo2endo M_Vars M_Simul S_Order S_Exo2endo S_Simul
  L_Order L_Order2 L_Order3 L_Order4 L_Order5 L_Exo L_Exo2 L_Exo3 L_Simul L_Simul2.
Import ListNotations.
Open Scope Z_scope.

(** Consequences of linking and ordering. *)
Lemma built_linked vars scl eqs l m : built vars scl eqs l m ->
  linked m /\ length (objs m) = length eqs /\ length (posrev m) = length vars /\
  exists m0, good vars eqs m0 /\ objs m = objs m0 /\ model_of eqs m0 /\ (l = [] -> m = m0).
Proof.
  intros (NV & NE & m0 & E & X). assert (G := link_model_good vars scl eqs m0 NE E). assert (L := linked_m vars eqs m0 NV NE G).
  destruct (exchanges_any vars (map fst eqs) l m0) as [K|[K|(m' & K & K1 & K2 & K3)]];
    [exact L|rewrite map_length; symmetry; exact (g_lo _ _ _ G)|exact (g_lr _ _ _ G)|congruence|congruence|].
  rewrite X in K. inversion K; subst m'. split; [exact K1|]. split; [now rewrite K2, (g_lo _ _ _ G)|].
  split; [now rewrite K3, (g_lr _ _ _ G)|]. exists m0. split; [exact G|]. split; [exact K2|]. split.
  - left. exists vars, scl. auto.
  - intros ->. cbn in X. now inversion X.
Qed.

Lemma sorted_order vars scl eqs l m given sort o : built vars scl eqs l m -> sorted eqs m given sort o ->
  Permutation (o_order o) (equations m) /\ 0 <= o_pre o /\ 0 <= o_inter o /\ 0 <= o_post o /\
  o_pre o + o_inter o + o_post o = len (objs m) /\
  forall i k a b, uses m i k -> at_rank o a i -> at_rank o b k ->
    (Z.of_nat a < o_pre o -> (b < a)%nat) /\ (o_pre o + o_inter o <= Z.of_nat b -> (b < a)%nat).
Proof.
  intros B (Hs & passes & E). destruct (built_linked _ _ _ _ _ B) as (L & Lo & Lv & m0 & G & Eo & M & _).
  destruct B as (NV & NE & _).
  assert (D : sort = SORT_NONE \/ sort <> SORT_NONE) by (destruct sort; [right|right|left]; congruence).
  destruct D as [->|D].
  - assert (E0 : order m0 (map fst eqs) given SORT_NONE passes = Ok o) by (rewrite <- E; unfold order, nb_eqs; now rewrite Eo).
    destruct (order_c37 eqs m0 (map fst eqs) given SORT_NONE passes NE M) as (o' & E1 & Pm & A1 & A2 & A3 & A4); [intros; auto|].
    rewrite E0 in E1. inversion E1; subst o'. unfold equations, len. rewrite Lo.
    split; [exact Pm|]. split; [exact A1|]. split; [exact A2|]. split; [exact A3|]. split; [exact A4|].
    intros i k a b _ _ Hb.
    assert (Z0 : o_pre o = 0 /\ o_post o = 0).
    { unfold order in E0. destruct given; [now inversion E0|]. destruct given_order; cbn in E0; inversion E0; now cbn. }
    split; intros H; exfalso; [lia|]. assert (Hl : (b < length (o_order o))%nat) by (eapply nth_lt; eassumption).
    rewrite (Permutation_length Pm), map_length, seq_length in Hl. lia.
  - destruct (order_permutation m (map fst eqs) given sort passes L D) as (o' & E1 & Pm & A1 & A2 & A3 & A4).
    rewrite E in E1. inversion E1; subst o'.
    split; [exact Pm|]. split; [exact A1|]. split; [exact A2|]. split; [exact A3|]. split; [exact A4|].
    exact (order_respects m (map fst eqs) given sort passes o L D E).
Qed.

(** * The parts of the order *)

Section Parts.
Variable m : model.
Variable o : ordering.
Hypothesis L : linked m.
Hypothesis Pm : Permutation (o_order o) (equations m).
Hypothesis B1 : 0 <= o_pre o.
Hypothesis B2 : 0 <= o_inter o.
Hypothesis B3 : 0 <= o_post o.
Hypothesis Bs : o_pre o + o_inter o + o_post o = len (objs m).

Lemma order_length : length (o_order o) = length (objs m).
Proof. rewrite (Permutation_length Pm). unfold equations. now rewrite map_length, seq_length. Qed.
Lemma order_nodup : NoDup (o_order o).
Proof. apply (Permutation_NoDup (Permutation_sym Pm)), equations_nodup. Qed.
Lemma order_in e : In e (o_order o) <-> exists k, e = Z.of_nat k /\ (k < length (objs m))%nat.
Proof.
  rewrite <- equations_in. split; intros H; [apply (Permutation_in (l := o_order o))|apply (Permutation_in (l := equations m))]; auto.
  now apply Permutation_sym.
Qed.

Lemma part_in from n e : 0 <= from -> 0 <= n -> In e (part o from n) <-> exists r k, e = Z.of_nat k /\ at_rank o r k /\ from <= Z.of_nat r < from + n.
Proof.
  intros Hf Hn. unfold part. split.
  - intros H. apply In_nth_error in H as (r & Hr). assert (Hl := nth_lt _ _ _ Hr). rewrite firstn_length in Hl.
    rewrite nth_error_firstn_ in Hr. destruct (Nat.ltb_spec r (Z.to_nat n)) as [Hrn|]; [|discriminate]. rewrite nth_error_skipn_ in Hr.
    assert (Ho : In e (o_order o)) by (eapply nth_error_In; eauto). apply order_in in Ho as (k & -> & Hk).
    exists (Z.to_nat from + r)%nat, k. split; [reflexivity|]. split; [exact Hr|lia].
  - intros (r & k & -> & Hr & Hb). apply (nth_error_In _ (r - Z.to_nat from)).
    rewrite nth_error_firstn_. destruct (Nat.ltb_spec (r - Z.to_nat from) (Z.to_nat n)) as [_|]; [|lia]. rewrite nth_error_skipn_. replace (Z.to_nat from + (r - Z.to_nat from))%nat with r by lia. exact Hr.
Qed.
Lemma parts_app : part o 0 (o_pre o) ++ part o (o_pre o) (o_inter o) ++ part o (o_pre o + o_inter o) (o_post o) = o_order o.
Proof.
  unfold part. change (Z.to_nat 0) with 0%nat. cbn [skipn].
  rewrite <- (firstn_skipn (Z.to_nat (o_pre o)) (o_order o)) at 4. f_equal.
  rewrite <- (firstn_skipn (Z.to_nat (o_inter o)) (skipn (Z.to_nat (o_pre o)) (o_order o))) at 2. f_equal.
  assert (K : forall a b (l : list Z), skipn a (skipn b l) = skipn (b + a) l).
  { intros a b l0. apply nth_error_ext. intros r. rewrite !nth_error_skipn_. f_equal. lia. }
  rewrite K. replace (Z.to_nat (o_pre o) + Z.to_nat (o_inter o))%nat with (Z.to_nat (o_pre o + o_inter o)) by lia.
  apply firstn_all2. rewrite skipn_length, order_length. unfold len in Bs. lia.
Qed.

Lemma endo_spec k : (k < length (objs m))%nat -> endo_of m k (endo m (Z.of_nat k)).
Proof.
  intros H. unfold endo_of, endo. rewrite Nat2Z.id. apply nth_error_nth'. now rewrite (l_len m L).
Qed.
Lemma endo_inj e f : In e (o_order o) -> In f (o_order o) -> endo m e = endo m f -> e = f.
Proof.
  intros He Hf E. apply order_in in He as (k & -> & Hk), Hf as (j & -> & Hj).
  destruct (l_endo m L k _ (endo_spec k Hk)) as [_ A], (l_endo m L j _ (endo_spec j Hj)) as [_ B]. rewrite E in A. rewrite A in B. now inversion B.
Qed.
Lemma endos_nodup : NoDup (map (endo m) (o_order o)).
Proof.
  assert (I : forall l, incl l (o_order o) -> NoDup l -> NoDup (map (endo m) l)); [|apply I; [apply incl_refl|apply order_nodup]].
  induction l as [|e l IH]; intros H N; [constructor|]. inversion N; subst. cbn. constructor.
  - rewrite in_map_iff. intros (f & E & Hf). assert (f = e); [|congruence]. apply endo_inj; auto; apply H; [now right|now left].
  - apply IH; [intros x Hx; apply H; now right|assumption].
Qed.
End Parts.

(** * Reading of the equations *)

Lemma own_endo (A : arith) f d j vars scl eqs m k : built vars scl eqs [] m -> (k < length eqs)%nat ->
  own (equations_of A f d j vars eqs) (Z.of_nat k) = endo m (Z.of_nat k).
Proof.
  intros B Hk. destruct (built_linked _ _ _ _ _ B) as (L & Lo & Lv & m0 & G & Eo & M & Em). specialize (Em eq_refl). subst m0.
  cbn. rewrite Nat2Z.id. assert (H : endo_of m k (endo m (Z.of_nat k))) by (apply endo_spec; [exact L|lia]).
  apply (endo_names vars eqs m G) in H as (n & ns & Hn & ->). f_equal.
  apply nth_error_nth. rewrite nth_error_map, Hn. reflexivity.
Qed.
Lemma own_occurs (A : arith) f d j vars scl eqs l m k : built vars scl eqs l m -> own_inside eqs -> (k < length eqs)%nat ->
  occurs m k (own (equations_of A f d j vars eqs) (Z.of_nat k)).
Proof.
  intros B O Hk. destruct (built_linked _ _ _ _ _ B) as (L & Lo & Lv & m0 & G & Eo & M & Em).
  destruct (nth_error eqs k) as [[n ns]|] eqn:E; [|apply nth_error_None in E; lia].
  assert (En : nth k (map fst eqs) [] = n) by (apply nth_error_nth; rewrite nth_error_map, E; reflexivity).
  cbn. rewrite Nat2Z.id, En.
  destruct (O n ns) as [O1 O2]; [now apply nth_error_In in E|].
  assert (H : occurs m0 k (pos_of vars n)).
  { apply (occurs_names vars eqs m0 G).
    - destruct B as (NV & NE & _). eapply (eq_in_vars vars eqs m0 NV NE G k). exists ns. exact E.
    - exists n, ns. auto. }
  unfold occurs in *. now rewrite Eo.
Qed.

Section Model.
Variable A : arith.
Variable f : Z -> values A -> Z -> F A.
Variable d : Z -> bool.
Variable j : F A.
Variables (vars scl : list str) (eqs : list (str * list str)) (l : list (str * str)).
Variable m : model.
Variables (given : list str) (sort : sort_option) (o : ordering).
Hypothesis HB : built vars scl eqs l m.
Hypothesis HS : sorted eqs m given sort o.
Hypothesis HR : reads_only m f.
Hypothesis HO : l = [] \/ own_inside eqs.
Notation Q := (equations_of A f d j vars eqs).
Notation pre := (part o 0 (o_pre o)).
Notation inter := (part o (o_pre o) (o_inter o)).
Notation post := (part o (o_pre o + o_inter o) (o_post o)).

Lemma m_linked : linked m. Proof. apply (built_linked _ _ _ _ _ HB). Qed.
Lemma m_len : length (objs m) = length eqs. Proof. apply (built_linked _ _ _ _ _ HB). Qed.

(** The endogenous variables of an equation list. *)
Definition outside (es : list Z) (v : Z) : Prop := ~ In v (map (endo m) es).

Lemma occurs_own e v k : In e (o_order o) -> In k (o_order o) -> occurs m (Z.to_nat e) v -> v = endo m k -> e = k \/ uses m (Z.to_nat e) (Z.to_nat k).
Proof.
  destruct (sorted_order _ _ _ _ _ _ _ _ HB HS) as (Pm & _).
  intros He Hk Ho ->. apply (order_in m o Pm) in He as (a & -> & Ha), Hk as (b & -> & Hb).
  destruct (Nat.eq_dec a b) as [->|N]; [now left|]. right. rewrite !Nat2Z.id in *. split; [exact N|].
  exists (endo m (Z.of_nat b)). split; [|exact Ho]. now apply endo_spec; [apply m_linked|].
Qed.

Lemma own_cases e : In e (o_order o) -> own Q e = endo m e \/ occurs m (Z.to_nat e) (own Q e).
Proof.
  destruct (sorted_order _ _ _ _ _ _ _ _ HB HS) as (Pm & _).
  intros He. apply (order_in m o Pm) in He as (a & -> & Ha). rewrite m_len in Ha. destruct HO as [E|O].
  - left. rewrite E in HB. now apply (own_endo A f d j vars scl eqs m a).
  - right. rewrite Nat2Z.id. now apply (own_occurs A f d j vars scl eqs l m a).
Qed.

(** An interdependent equation does not read the results of the epilog. *)
Lemma inter_readable t : Forall (readable A Q (outside post) (endo m) t) inter.
Proof.
  destruct (sorted_order _ _ _ _ _ _ _ _ HB HS) as (Pm & B1 & B2 & B3 & Bs & Resp).
  apply Forall_forall. intros e He. assert (Heo : In e (o_order o)).
  { rewrite <- (parts_app m o Pm B1 B2 Bs), !in_app_iff. auto. }
  assert (D : forall v, occurs m (Z.to_nat e) v \/ v = endo m e -> outside post v).
  { intros v Hv Hp. apply in_map_iff in Hp as (k & Ek & Hk).
    assert (Hko : In k (o_order o)) by (rewrite <- (parts_app m o Pm B1 B2 Bs), !in_app_iff; auto).
    apply (part_in m o Pm) in He as (a & ea & -> & Ra & Ba); try lia.
    apply (part_in m o Pm) in Hk as (b & eb & -> & Rb & Bb); try lia.
    assert (U : Z.of_nat ea = Z.of_nat eb \/ uses m ea eb).
    { destruct Hv as [Hv|Hv].
      - assert (U := occurs_own (Z.of_nat ea) v (Z.of_nat eb) Heo Hko Hv (eq_sym Ek)). now rewrite !Nat2Z.id in U.
      - left. apply (endo_inj m o m_linked Pm); auto. congruence. }
    destruct U as [U|U].
    - apply Nat2Z.inj in U. subst eb. assert (a = b); [|lia].
      apply (nodup_rank (o_order o) a b (Z.of_nat ea)); auto. apply (order_nodup m o Pm).
    - destruct (Resp ea eb a b U Ra Rb) as [_ K]. lia. }
  split; [|split].
  - intros s s' G. cbn. apply HR. intros v p Hv. apply G. apply D. now left.
  - apply D. now right.
  - apply D. destruct (own_cases e Heo) as [E|E]; auto.
Qed.
End Model.
