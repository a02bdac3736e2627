(** Simulating twice; numerical solutions. *)
From Coq Require Import ZArith List Bool Lia Permutation.
From Verif Require Import M_Base M_Names M_Bytes M_Exec M_Order M_Exo2endo M_Vars M_Simul S_Order S_Exo2endo S_Simul
  L_Order L_Order2 L_Order3 L_Order4 L_Order5 L_Exo L_Exo2 L_Exo3 L_Simul L_Simul2 L_Simul4 L_Simul5.
Import ListNotations.
Open Scope Z_scope.

(** * A pass does not depend on the former contents of KSIM_XK and KSIM_NORM *)

Section Old.
Variable A : arith.
Variable Q : eqns A.
Variable P : params A.
Variable endo : Z -> Z.
Variable t : Z.

Lemma interdep_1_old r es : forall old old' s norm,
  i_s (interdep_1 A Q P endo t r es old s norm) = i_s (interdep_1 A Q P endo t r es old' s norm) /\
  i_norm (interdep_1 A Q P endo t r es old s norm) = i_norm (interdep_1 A Q P endo t r es old' s norm) /\
  i_ok (interdep_1 A Q P endo t r es old s norm) = i_ok (interdep_1 A Q P endo t r es old' s norm).
Proof.
  induction es as [|e es IH]; intros old old' s norm; cbn [interdep_1]; [now cbn|].
  destruct (calculate A Q P e t (endo e) s) as [s1 x]. destruct (negb _); [now cbn|].
  destruct (num A (s (endo e) t)); cbn [i_s i_norm i_ok]; apply IH.
Qed.
Lemma stage_1_old es : forall old old' s,
  fst (fst (fst (stage_1 A Q P endo t es old s))) = fst (fst (fst (stage_1 A Q P endo t es old' s))) /\
  snd (fst (stage_1 A Q P endo t es old s)) = snd (fst (stage_1 A Q P endo t es old' s)) /\
  snd (stage_1 A Q P endo t es old s) = snd (stage_1 A Q P endo t es old' s).
Proof.
  induction es as [|e es IH]; intros old old' s; cbn [stage_1]; [now cbn|].
  destruct (calculate A Q P e t (endo e) s) as [s1 x]. destruct (negb _); [now cbn|].
  destruct (IH (tl old) (tl old') s1) as (J1 & J2 & J3).
  destruct (stage_1 A Q P endo t es (tl old) s1) as [[[? ?] ?] ?], (stage_1 A Q P endo t es (tl old') s1) as [[[? ?] ?] ?].
  cbn [fst snd] in *. now subst.
Qed.
Lemma interdep_old inter old old' s norm norm' : NoDup (map endo inter) ->
  i_ok (interdep A Q P endo inter t old s norm) = true ->
  i_ok (interdep A Q P endo inter t old' s norm') = true /\
  i_norm (interdep A Q P endo inter t old' s norm') = i_norm (interdep A Q P endo inter t old s norm).
Proof.
  intros N. unfold interdep. destruct le.
  - destruct (interdep_1_old (abs A (relax P)) inter old' old s (zer A)) as (J1 & J2 & J3). rewrite J2, J3. auto.
  - unfold interdep_2. destruct (stage_1_old inter old' old s) as (J1 & J2 & J3).
    assert (X := stage_1_xk A Q P endo t inter N old s). assert (X' := stage_1_xk A Q P endo t inter N old' s).
    destruct (stage_1 A Q P endo t inter old s) as [[[s2 xks] xs] ok], (stage_1 A Q P endo t inter old' s) as [[[s2' xks'] xs'] ok'].
    cbn [fst snd] in *. subst s2' xs' ok'. destruct ok; [|discriminate].
    destruct (X eq_refl) as (rest & ->). destruct (X' eq_refl) as (rest' & ->).
    assert (G : forall es s0 n0 xs, stage_2 A P endo t (abs A (relax P)) es (map (fun e => s (endo e) t) es ++ rest') xs s0 n0 =
      stage_2 A P endo t (abs A (relax P)) es (map (fun e => s (endo e) t) es ++ rest) xs s0 n0).
    { clear. induction es as [|e es IH]; intros s0 n0 [|x xs]; cbn [map app stage_2]; auto; [destruct rest, rest'; reflexivity..|].
      destruct (num A (s (endo e) t)); apply IH. }
    rewrite G. destruct stage_2. cbn. auto.
Qed.
End Old.

(** * Settled blocks *)

Definition same A (s s' : values A) : Prop := forall v p, s v p = s' v p.
Lemma same_set A t (s s' : values A) v x : same A s s' -> x = s' v t -> same A (set s v t x) s'.
Proof.
  intros H -> w p. destruct (Z.eq_dec w v) as [->|a]; [destruct (Z.eq_dec p t) as [->|b]|].
  - apply set_same.
  - rewrite set_other by tauto. apply H.
  - rewrite set_other by tauto. apply H.
Qed.

Section Settled.
Variable A : arith.
Variable Q : eqns A.
Variable P : params A.
Variable endo : Z -> Z.
Variable t : Z.
Hypothesis Hext : forall e s s', same A s s' -> ev Q e s t = ev Q e s' t.

Definition settled (c : values A) (e : Z) : Prop := c (endo e) t = ev Q e c t.
Definition plain (e : Z) : Prop := dup Q e = false /\ own Q e = endo e /\ explicit (own Q) (ev Q) e.

Lemma plain_calculate e s : plain e -> calculate A Q P e t (endo e) s = (s, ev Q e s t).
Proof. intros (D & O & _). unfold calculate. now rewrite D, O, Z.eqb_refl. Qed.

Lemma solve_settled es : Forall plain es -> forall c c', same A c' c -> Forall (settled c) es -> same A (solve_block A Q P endo t es c') c.
Proof.
  induction 1 as [|e es H _ IH]; intros c c' S F; [exact S|]. inversion F as [|? ? F1 F2]; subst. cbn [solve_block].
  rewrite plain_calculate by exact H. apply IH; [|exact F2]. apply same_set; [exact S|]. rewrite F1. now apply Hext.
Qed.

(** Equation [e] does not read the endogenous variables of [es]. *)
Definition blind (e : Z) (es : list Z) : Prop :=
  forall s s', (forall v p, In v (map endo es) \/ s v p = s' v p) -> ev Q e s t = ev Q e s' t.
Lemma settled_keep e es c c' : blind e es -> ~ In (endo e) (map endo es) -> only A (endos endo t es) c c' ->
  settled c e -> settled c' e.
Proof.
  intros B N O S. unfold settled in *. destruct (O (endo e) t) as [[_ (k & Hk & E)]|E].
  - destruct N. rewrite E. now apply in_map.
  - rewrite E, S. apply B. intros v p. destruct (O v p) as [[_ (k & Hk & ->)]|K]; [left; now apply in_map|right; congruence].
Qed.
Lemma solve_settles es : Forall plain es -> NoDup (map endo es) -> (forall a e b, es = a ++ e :: b -> blind e b) ->
  forall s, Forall (settled (solve_block A Q P endo t es s)) es.
Proof.
  induction 1 as [|e es H _ IH]; intros N B s; [constructor|]. inversion N as [|? ? N1 N2]; subst. cbn [solve_block].
  rewrite plain_calculate by exact H.
  assert (B' : forall a e b, es = a ++ e :: b -> blind e b) by (intros a k b E; apply (B (e :: a) k b); now rewrite E).
  constructor; [|now apply IH].
  apply (settled_keep e es (set s (endo e) t (ev Q e s t))); [now apply (B [] e es)|exact N1|apply solve_only|].
  unfold settled. rewrite set_same. destruct H as (_ & O & E). rewrite <- O. symmetry. apply E.
Qed.
End Settled.

Section Again.
Variable A : arith.
Variable f : Z -> values A -> Z -> F A.
Variable d : Z -> bool.
Variable j : F A.
Variable P : params A.
Variables (vars scl : list str) (eqs : list (str * list str)).
Variable m : model.
Variables (given : list str) (sort : sort_option) (o : ordering).
Hypothesis HB : built vars scl eqs [] m.
Hypothesis HS : sorted eqs m given sort o.
Hypothesis HR : reads_only m f.
Notation Q := (equations_of A f d j vars eqs).
Notation pre := (part o 0 (o_pre o)).
Notation inter := (part o (o_pre o) (o_inter o)).
Notation post := (part o (o_pre o + o_inter o) (o_post o)).
Hypothesis Hplain : forall e, In (Z.of_nat e) (pre ++ post) -> d (Z.of_nat e) = false /\ explicit (own Q) f (Z.of_nat e).
Variable t : Z.

Lemma ext_ev e s s' : same A s s' -> ev Q e s t = ev Q e s' t.
Proof. intros H. cbn. apply HR. intros v p _. apply H. Qed.

Lemma all_plain : Forall (plain A Q (endo m)) (pre ++ post).
Proof.
  destruct (sorted_order _ _ _ _ _ _ _ _ HB HS) as (Pm & B1 & B2 & B3 & Bs & _).
  apply Forall_forall. intros e He.
  assert (Ho : In e (o_order o)) by (apply in_app_iff in He as [He|He]; eapply part_incl; eauto).
  apply (order_in m o Pm) in Ho as (k & -> & Hk). destruct (Hplain k He) as [D E]. split; [exact D|]. split; [|exact E].
  apply (own_endo A f d j vars scl eqs m k HB). rewrite <- (m_len vars scl eqs [] m HB). exact Hk.
Qed.

(** Not read: the endogenous variables of other equations at ranks where the order allows no use. *)
Lemma blind_ranks e es : In e (o_order o) -> incl es (o_order o) -> ~ In e es ->
  (forall k, In k es -> ~ uses m (Z.to_nat e) (Z.to_nat k)) -> blind A Q (endo m) t e es.
Proof.
  intros He I Hn Hu s s' H. cbn. apply HR. intros v p Hv. destruct (H v p) as [K|K]; [|exact K]. exfalso.
  apply in_map_iff in K as (k & <- & Hk).
  destruct (occurs_own vars scl eqs [] m given sort o HB HS e (endo m k) k He (I k Hk) Hv eq_refl) as [E|U]; [now subst|].
  now apply (Hu k Hk).
Qed.

Lemma rank_of from n e : 0 <= from -> 0 <= n -> In e (part o from n) -> exists r k, e = Z.of_nat k /\ at_rank o r k /\ from <= Z.of_nat r < from + n.
Proof.
  intros. destruct (sorted_order _ _ _ _ _ _ _ _ HB HS) as (Pm & _). now apply (part_in m o Pm).
Qed.

Lemma rank_unique r r' e : at_rank o r e -> at_rank o r' e -> r = r'.
Proof.
  destruct (sorted_order _ _ _ _ _ _ _ _ HB HS) as (Pm & _). intros H H'.
  apply (nodup_rank (o_order o) r r' (Z.of_nat e)); auto. apply (order_nodup m o Pm).
Qed.

(** In a block, the equations after a given one have larger ranks. *)
Lemma part_split from n a e b : 0 <= from -> 0 <= n -> part o from n = a ++ e :: b ->
  exists k, e = Z.of_nat k /\ at_rank o (Z.to_nat from + length a) k /\ Z.of_nat (length a) < n /\
    forall x, In x b -> exists r kx, x = Z.of_nat kx /\ at_rank o r kx /\ (Z.to_nat from + length a < r)%nat /\ Z.of_nat r < from + n.
Proof.
  intros Hf Hn E. destruct (sorted_order _ _ _ _ _ _ _ _ HB HS) as (Pm & _).
  assert (G : forall i x, nth_error (a ++ e :: b) i = Some x -> exists k, x = Z.of_nat k /\ at_rank o (Z.to_nat from + i) k /\ Z.of_nat i < n).
  { intros i x Hi. rewrite <- E in Hi. unfold part in Hi. rewrite nth_error_firstn_ in Hi.
    destruct (Nat.ltb_spec i (Z.to_nat n)); [|discriminate]. rewrite nth_error_skipn_ in Hi.
    assert (Ho : In x (o_order o)) by (eapply nth_error_In; eauto). apply (order_in m o Pm) in Ho as (k & -> & _).
    exists k. split; [reflexivity|]. split; [exact Hi|lia]. }
  destruct (G (length a) e) as (k & -> & Hk & Hl); [rewrite nth_error_app2, Nat.sub_diag by lia; reflexivity|].
  exists k. split; [reflexivity|]. split; [exact Hk|]. split; [exact Hl|].
  intros x Hx. apply In_nth_error in Hx as (i & Hi).
  destruct (G (length a + S i)%nat x) as (kx & -> & Hkx & Hlx).
  { rewrite nth_error_app2 by lia. replace (length a + S i - length a)%nat with (S i) by lia. exact Hi. }
  exists (Z.to_nat from + (length a + S i))%nat, kx. split; [reflexivity|]. split; [exact Hkx|]. lia.
Qed.

Lemma pre_blind a e b : pre = a ++ e :: b -> blind A Q (endo m) t e (b ++ inter ++ post).
Proof.
  destruct (sorted_order _ _ _ _ _ _ _ _ HB HS) as (Pm & B1 & B2 & B3 & Bs & Resp).
  intros E. destruct (part_split 0 (o_pre o) a e b ltac:(lia) B1 E) as (k & -> & Hk & Hl & Hb).
  cbn [Z.to_nat Nat.add] in Hk.
  assert (G : forall x, In x (b ++ inter ++ post) -> exists r kx, x = Z.of_nat kx /\ at_rank o r kx /\ (length a < r)%nat).
  { intros x Hx. rewrite !in_app_iff in Hx. destruct Hx as [Hx|[Hx|Hx]].
    - destruct (Hb x Hx) as (r & kx & -> & Hr & H1 & _). exists r, kx. auto.
    - destruct (rank_of _ _ _ B1 B2 Hx) as (r & kx & -> & Hr & H1). exists r, kx. repeat split; auto. lia.
    - destruct (rank_of (o_pre o + o_inter o) (o_post o) x ltac:(lia) B3 Hx) as (r & kx & -> & Hr & H1). exists r, kx. repeat split; auto. lia. }
  apply blind_ranks.
  - eapply nth_error_In; exact Hk.
  - intros x Hx. destruct (G x Hx) as (r & kx & -> & Hr & _). eapply nth_error_In; exact Hr.
  - intros Hx. destruct (G _ Hx) as (r & kx & Ek & Hr & H1). apply Nat2Z.inj in Ek. subst kx. assert (r = length a) by (eapply rank_unique; eauto). lia.
  - intros x Hx U. destruct (G x Hx) as (r & kx & -> & Hr & H1). rewrite !Nat2Z.id in U.
    destruct (Resp k kx (length a) r U Hk Hr) as [K _]. lia.
Qed.
Lemma post_blind a e b : post = a ++ e :: b -> blind A Q (endo m) t e b.
Proof.
  destruct (sorted_order _ _ _ _ _ _ _ _ HB HS) as (Pm & B1 & B2 & B3 & Bs & Resp).
  intros E. destruct (part_split (o_pre o + o_inter o) (o_post o) a e b ltac:(lia) B3 E) as (k & -> & Hk & Hl & Hb).
  apply blind_ranks.
  - eapply nth_error_In; exact Hk.
  - intros x Hx. destruct (Hb x Hx) as (r & kx & -> & Hr & _). eapply nth_error_In; exact Hr.
  - intros Hx. destruct (Hb _ Hx) as (r & kx & Ek & Hr & H1 & _). apply Nat2Z.inj in Ek. subst kx.
    assert (r = (Z.to_nat (o_pre o + o_inter o) + length a)%nat) by (eapply rank_unique; eauto). lia.
  - intros x Hx U. destruct (Hb x Hx) as (r & kx & -> & Hr & H1 & H2). rewrite !Nat2Z.id in U.
    destruct (Resp k kx _ r U Hk Hr) as [_ K]. lia.
Qed.

Lemma disjoint_blocks e es fs : In e es -> (exists u w z, pre ++ inter ++ post = u ++ es ++ w ++ fs ++ z) -> ~ In (endo m e) (map (endo m) fs).
Proof.
  intros He (u & w & z & E). assert (N := blocks_nodup vars scl eqs [] m given sort o HB HS). rewrite E, !map_app in N.
  apply NoDup_app_split in N as (_ & N & _). apply NoDup_app_split in N as (_ & _ & N).
  intros K. apply (N (endo m e)); [now apply in_map|]. rewrite !in_app_iff. auto.
Qed.

Lemma simulate_again key key' s xk xk' norm norm' : key' 1%nat = false ->
  let r := simulate_period A Q P m o key t s xk norm in
  r_stop r = CONVERGED ->
  let r' := simulate_period A Q (keeping_values P) m o key' t (r_s r) xk' norm' in
  r_stop r' = CONVERGED /\ r_iters r' = 1%nat /\ same A (r_s r') (r_s r).
Proof.
  intros Hk r Hc r'.
  assert (NI := inter_nodup vars scl eqs [] m given sort o HB HS).
  assert (NB := blocks_nodup vars scl eqs [] m given sort o HB HS).
  destruct (converged A Q P (fun _ => True) (endo m) t pre inter post key s xk norm NI Hc) as (s0 & xk0 & n0 & b & H1 & H2 & H3 & H4 & H5).
  fold (simulate_period A Q P m o key t s xk norm) in H5. fold r in H5.
  set (c := r_s r) in *. set (a := solve_block A Q P (endo m) t pre _) in H3.
  assert (Fp : Forall (plain A Q (endo m)) pre /\ Forall (plain A Q (endo m)) post) by (apply Forall_app, all_plain).
  destruct Fp as [Fpre Fpost].
  assert (Npre : NoDup (map (endo m) pre)) by (rewrite map_app in NB; now apply NoDup_app_split in NB).
  assert (Npost : NoDup (map (endo m) post)).
  { rewrite !map_app in NB. apply NoDup_app_split in NB as (_ & NB & _). now apply NoDup_app_split in NB. }
  (* the prolog is settled in c *)
  assert (Spre0 : Forall (settled A Q (endo m) t a) pre).
  { apply solve_settles; auto. intros a0 e b0 E. intros s1 s2 K. apply (pre_blind a0 e b0 E). intros v p.
    destruct (K v p) as [J|J]; [left; rewrite map_app, in_app_iff; auto|now right]. }
  assert (Oc : only A (endos (endo m) t (inter ++ post)) a c).
  { apply (only_trans A _ a b c).
    - intros v p. rewrite H4. destruct (H3 v p) as [[-> (e & He & ->)]|E]; [left; split; [reflexivity|exists e; rewrite in_app_iff; auto]|now right].
    - rewrite H5. eapply only_weaken; [|apply solve_only]. intros v p. apply endos_incl. intros x Hx. apply in_app_iff. auto. }
  assert (Spre : Forall (settled A Q (endo m) t c) pre).
  { apply Forall_forall. intros e He. rewrite Forall_forall in Spre0. destruct (in_split e pre He) as (a0 & b0 & E).
    apply (settled_keep A Q (endo m) t e (inter ++ post) a c); auto.
    - intros s1 s2 K. apply (pre_blind a0 e b0 E). intros v p. destruct (K v p) as [J|J]; [left|now right].
      rewrite map_app in J |- *. apply in_app_iff. now right; rewrite map_app.
    - apply (disjoint_blocks e pre (inter ++ post) He). exists [], [], []. rewrite !app_nil_r. cbn. reflexivity. }
  assert (Spost : Forall (settled A Q (endo m) t c) post).
  { rewrite H5. apply solve_settles; auto. exact post_blind. }
  (* the second simulation *)
  assert (Ei : same A (init_values A (keeping_values P) (endo m) pre inter post t c) c).
  { unfold init_values. generalize (pre ++ inter ++ post) as es. intros es.
    assert (G : forall es c', same A c' c -> same A (fold_left (fun s e => set s (endo m e) t (init_value A (keeping_values P) t (s (endo m e)) (start (keeping_values P)))) es c') c).
    { induction es0 as [|e es0 IH]; intros c' S; [exact S|]. cbn [fold_left]. apply IH. apply same_set; [exact S|]. cbn. apply S. }
    now apply G. }
  assert (Ea : same A (solve_block A Q (keeping_values P) (endo m) t pre (init_values A (keeping_values P) (endo m) pre inter post t c)) c).
  { apply solve_settled; [exact (ext_ev)|auto..]. }
  unfold r', simulate_period, sub_simulate.
  set (a' := solve_block A Q (keeping_values P) (endo m) t pre _) in *.
  assert (AG : agree A (outside m post) s0 a').
  { intros w p Hw. rewrite Ea, H5. destruct (solve_only A Q P (endo m) t post b w p) as [[-> (k & Hin & ->)]|E].
    - exfalso. apply Hw. now apply in_map.
    - now rewrite E, H4. }
  assert (RD := inter_readable A f d j vars scl eqs [] m given sort o HB HS HR (or_introl eq_refl) t).
  destruct (interdep_ext A Q P (outside m post) (endo m) t inter RD xk0 s0 a' n0 AG) as (J1 & J2 & J3 & _).
  rewrite J3 in H1. rewrite J2 in H2.
  destruct (interdep_old A Q P (endo m) t inter xk0 xk' a' n0 norm' NI H1) as [K1 K2]. rewrite <- K2 in H2.
  assert (EP : interdep A Q (keeping_values P) (endo m) inter t xk' a' norm' = interdep A Q P (endo m) inter t xk' a' norm') by reflexivity.
  set (i := interdep A Q P (endo m) inter t xk' a' norm') in *.
  assert (Hm : exists n, maxit (keeping_values P) = S n).
  { cbn. destruct (maxit P) as [|n] eqn:M; [|eauto]. exfalso. unfold r, simulate_period, sub_simulate in Hc. rewrite M in Hc. cbn [iterate] in Hc.
    destruct diverge as [[? ?] ?]. discriminate. }
  destruct Hm as [n Hm]. rewrite Hm. cbn [iterate]. rewrite EP, K1, Hk. cbn [negb]. change (eps (keeping_values P)) with (eps P). rewrite H2. cbn [r_stop r_iters r_s].
  split; [reflexivity|]. split; [reflexivity|].
  apply solve_settled; [exact ext_ev|exact Fpost| |exact Spost].
  destruct (interdep_xk A Q P (fun _ => True) (endo m) t inter NI xk' a' norm' K1) as (rest & X). fold i in X. rewrite X.
  intros v p. rewrite restore_back with (s0 := a'); [apply Ea|exact (fun _ => True)|apply interdep_only].
Qed.
End Again.
