(** The tables built by linking. *)
From Coq Require Import ZArith Ascii String List Bool Lia Permutation Relations.
From Verif Require Import M_Base M_Names M_Lex M_Bytes M_Exec M_Order S_Order L_Names L_Eval L_Order L_Order2 L_Order3 L_Order4.
Import ListNotations.
Open Scope Z_scope.

Lemma pos_of_nonneg l x : 0 <= pos_of l x -> nth_error l (Z.to_nat (pos_of l x)) = Some x.
Proof.
  unfold pos_of. pose proof (index_of_spec x l 0) as Q. destruct (index_of x l 0); [|lia].
  destruct Q as (j & -> & Q). intros _. now rewrite Z.add_0_l, Nat2Z.id.
Qed.
Lemma pos_of_min l x : -1 <= pos_of l x < len l.
Proof.
  unfold pos_of. pose proof (index_of_spec x l 0) as Q. destruct (index_of x l 0); [|unfold len; lia].
  destruct Q as (j & -> & Q). apply nth_lt in Q. unfold len. lia.
Qed.
Lemma pos_of_in l x : In x l -> 0 <= pos_of l x.
Proof.
  intros H. unfold pos_of. pose proof (index_of_spec x l 0) as Q. destruct (index_of x l 0); [|contradiction].
  destruct Q as (j & -> & Q). lia.
Qed.
Lemma pos_of_nth l i x : NoDup l -> nth_error l i = Some x -> pos_of l x = Z.of_nat i.
Proof.
  intros N H. assert (Q := pos_of_in l x (nth_error_In _ _ H)). assert (Q2 := pos_of_nonneg l x Q).
  assert (Z.to_nat (pos_of l x) = i); [|lia]. apply (proj1 (NoDup_nth_error l) N); [|congruence]. now apply nth_lt in Q2.
Qed.

Lemma link_objs_spec vars scl names : forall o, link_objs vars scl names = Some o ->
  map fst o = names /\ (forall n p, In (n, p) o -> is_coefficient n = false -> p = pos_of vars n /\ 0 <= p).
Proof.
  induction names as [|n names IH]; intros o H; cbn [link_objs] in H.
  - inversion H. split; [reflexivity|intros ? ? []].
  - destruct (Z.ltb_spec (pos_of (if is_coefficient n then scl else vars) n) 0); [discriminate|].
    destruct (link_objs vars scl names) as [r|] eqn:E; [|discriminate]. inversion H; subst.
    destruct (IH r eq_refl) as [A B]. split; [cbn; now rewrite A|]. intros n' p [Q|Q] C; [|now apply B].
    inversion Q; subst. rewrite C in *. auto.
Qed.

Record good (vars : list str) (D : list (str * list str)) (m : model) : Prop := {
  g_lo : length (objs m) = length D;
  g_xk : posxk m = map (fun e => pos_of vars (fst e)) D;
  g_xk0 : Forall (fun v => 0 <= v) (posxk m);
  g_lr : length (posrev m) = length vars;
  g_rev : forall v e, nth_error (posrev m) v = Some e -> e = -1 \/ exists k, e = Z.of_nat k /\ endo_of m k (Z.of_nat v);
  g_end : forall k v, endo_of m k v -> nth_error (posrev m) (Z.to_nat v) = Some (Z.of_nat k);
  g_objs : forall i n names, nth_error D i = Some (n, names) ->
     exists o, nth_error (objs m) i = Some o /\ map fst o = names /\
       (forall w p, In (w, p) o -> is_coefficient w = false -> p = pos_of vars w /\ 0 <= p)
}.

Lemma link_loop_ok vars scl todo : forall D m, good vars D m -> NoDup (map fst (D ++ todo)) ->
  exists r, link_loop vars scl todo (len D) m = Ok r /\ forall m', r = Some m' -> good vars (D ++ todo) m'.
Proof.
  induction todo as [|[name names] todo IH]; intros D m G N.
  - exists (Some m). split; [reflexivity|]. rewrite app_nil_r. intros m' Q. now inversion Q; subst.
  - cbn [link_loop]. destruct (Z.ltb_spec (pos_of vars name) 0) as [Hn|Hn].
    { exists None. split; [reflexivity|discriminate]. }
    set (pv := pos_of vars name) in *. assert (Bv : -1 <= pv < len vars) by apply pos_of_min.
    assert (Es : setz (posrev m) pv (len D) = Ok (put_at (posrev m) (Z.to_nat pv) (len D))).
    { unfold setz. rewrite (g_lr _ _ _ G). fold (len vars).
      destruct (Z.ltb_spec pv 0); [lia|]. destruct (Z.leb_spec (len vars) pv); [lia|reflexivity]. }
    rewrite Es. cbn [rbind].
    destruct (link_objs vars scl names) as [o|] eqn:Eo; [|exists None; split; [reflexivity|discriminate]].
    destruct (link_objs_spec _ _ _ _ Eo) as [O1 O2].
    assert (Lx : length (posxk m) = length D) by (rewrite (g_xk _ _ _ G); apply map_length).
    assert (Fresh : forall k, ~ endo_of m k pv).
    { intros k Hk. unfold endo_of in Hk. rewrite (g_xk _ _ _ G), nth_error_map in Hk.
      destruct (nth_error D k) as [[n' ns']|] eqn:Ek; [|discriminate]. cbn in Hk. inversion Hk as [Hp].
      assert (Q1 := pos_of_nonneg vars name Hn). assert (Q2 : 0 <= pos_of vars n') by (unfold pv in Hp; lia).
      apply pos_of_nonneg in Q2. fold pv in Q1. rewrite Hp in Q2. assert (n' = name) by congruence. subst n'.
      rewrite map_app in N. cbn in N. apply NoDup_remove_2 in N. apply N. apply in_app_iff. left.
      apply in_map_iff. exists (name, ns'). split; [reflexivity|]. now apply nth_error_In in Ek. }
    assert (E1 : forall k v, nth_error (posxk m ++ [pv]) k = Some v -> nth_error (posxk m) k = Some v \/ (k = length D /\ v = pv)).
    { intros k v H. destruct (Nat.lt_ge_cases k (length (posxk m))) as [Hl|Hl].
      - rewrite nth_error_app1 in H by exact Hl. now left.
      - rewrite nth_error_app2 in H by exact Hl. destruct (k - length (posxk m))%nat as [|q] eqn:Ek; [|destruct q; discriminate].
        cbn in H. inversion H. right. split; [lia|reflexivity]. }
    set (m1 := mkM _ _ _).
    assert (G1 : good vars (D ++ [(name, names)]) m1).
    { constructor; unfold m1, endo_of in *; cbn [objs posxk posrev].
      - rewrite !app_length, (g_lo _ _ _ G). reflexivity.
      - rewrite map_app, (g_xk _ _ _ G). reflexivity.
      - apply Forall_app. split; [exact (g_xk0 _ _ _ G)|]. constructor; [exact Hn|constructor].
      - rewrite put_at_length. exact (g_lr _ _ _ G).
      - intros v e H. rewrite put_at_nth in H. destruct (Nat.eqb_spec (Z.to_nat pv) v) as [Ev|Nv].
        + destruct (Nat.ltb_spec (Z.to_nat pv) (length (posrev m))); [|discriminate]. inversion H; subst e. right.
          exists (length D). split; [reflexivity|]. rewrite nth_error_app2 by lia. rewrite Lx, Nat.sub_diag. cbn. f_equal. lia.
        + destruct (g_rev _ _ _ G v e H) as [->|(k & -> & Hk)]; [now left|]. right. exists k. split; [reflexivity|].
          unfold endo_of in Hk. rewrite nth_error_app1; [exact Hk|]. now apply nth_lt in Hk.
      - intros k v H. rewrite put_at_nth. destruct (E1 k v H) as [H1|[-> ->]].
        + destruct (Nat.eqb_spec (Z.to_nat pv) (Z.to_nat v)) as [Ev|Nv]; [|now apply (g_end _ _ _ G)].
          exfalso. apply (Fresh k). assert (0 <= v).
          { assert (F0 := g_xk0 _ _ _ G). rewrite Forall_forall in F0. apply F0. now apply nth_error_In in H1. }
          replace pv with v by lia. exact H1.
        + rewrite Nat.eqb_refl. destruct (Nat.ltb_spec (Z.to_nat pv) (length (posrev m))); [reflexivity|].
          rewrite (g_lr _ _ _ G) in *. unfold len in Bv. lia.
      - intros i n ns Hi. destruct (Nat.lt_ge_cases i (length D)) as [Hl|Hl].
        + rewrite nth_error_app1 in Hi by exact Hl. destruct (g_objs _ _ _ G i n ns Hi) as (o' & A & B & C).
          exists o'. split; [|auto]. rewrite nth_error_app1; [exact A|]. rewrite (g_lo _ _ _ G). exact Hl.
        + rewrite nth_error_app2 in Hi by exact Hl. destruct (i - length D)%nat as [|q] eqn:Ei; [|destruct q; discriminate].
          cbn in Hi. inversion Hi; subst n ns. exists o. split; [|auto]. rewrite nth_error_app2 by (rewrite (g_lo _ _ _ G); exact Hl).
          rewrite (g_lo _ _ _ G), Ei. reflexivity. }
    destruct (IH (D ++ [(name, names)]) m1 G1) as (r & E & H).
    + rewrite <- app_assoc. exact N.
    + exists r. rewrite len_app, len1 in E. split; [exact E|]. intros m' Q. specialize (H m' Q). now rewrite <- app_assoc in H.
Qed.

(** What the theorems need to know about a freshly linked model. *)
Definition fresh (eqs : list (str * list str)) (m : model) : Prop :=
  linked m /\ exact_tables m /\ length (objs m) = length eqs /\
  (forall i k, uses m i k <-> reads eqs i k) /\ (without_coefficients eqs -> forall i, ~ has_coefficient m i).

Lemma good_fresh vars eqs m : NoDup vars -> NoDup (map fst eqs) -> good vars eqs m -> fresh eqs m.
Proof.
  intros NV NE G. assert (Lx : length (posxk m) = length eqs) by (rewrite (g_xk _ _ _ G); apply map_length).
  assert (X0 : forall k v, endo_of m k v -> 0 <= v).
  { intros k v H. assert (F0 := g_xk0 _ _ _ G). rewrite Forall_forall in F0. apply F0. now apply nth_error_In in H. }
  assert (Obj : forall i o, nth_error (objs m) i = Some o -> exists n names, nth_error eqs i = Some (n, names) /\ map fst o = names /\
       (forall w p, In (w, p) o -> is_coefficient w = false -> p = pos_of vars w /\ 0 <= p)).
  { intros i o H. assert (Hl := nth_lt _ _ _ H). rewrite (g_lo _ _ _ G) in Hl. destruct (nth_ex eqs i Hl) as [[n names] Hi].
    destruct (g_objs _ _ _ G i n names Hi) as (o' & A & B & C). assert (o' = o) by congruence. subst o'. exists n, names. auto. }
  assert (Occ : forall i v, occurs m i v -> 0 <= v < len vars).
  { intros i v (o & w & Ho & Hin & C). destruct (Obj i o Ho) as (n & names & _ & _ & P). destruct (P w v Hin C) as [-> ?].
    assert (B := pos_of_min vars w). lia. }
  split; [|split; [|split; [|split]]].
  - constructor.
    + rewrite Lx. symmetry. exact (g_lo _ _ _ G).
    + intros k v H. split; [now apply (X0 k)|now apply (g_end _ _ _ G)].
    + intros v e H. destruct (g_rev _ _ _ G v e H) as [->|(k & -> & Hk)]; [unfold len; lia|].
      apply nth_lt in Hk. rewrite Lx, <- (g_lo _ _ _ G) in Hk. unfold len. lia.
    + intros i v H. apply Occ in H. unfold len in *. rewrite (g_lr _ _ _ G). lia.
  - intros v e H He. destruct (g_rev _ _ _ G v e H) as [->|(k & -> & Hk)]; [lia|]. now rewrite Nat2Z.id.
  - exact (g_lo _ _ _ G).
  - intros i k. split.
    + intros (Hne & v & Hv & o & w & Ho & Hin & C). split; [exact Hne|]. destruct (Obj i o Ho) as (n & names & Hi & Em & P).
      unfold endo_of in Hv. rewrite (g_xk _ _ _ G), nth_error_map in Hv. destruct (nth_error eqs k) as [[nk nsk]|] eqn:Ek; [|discriminate].
      cbn in Hv. inversion Hv as [Hp]. destruct (P w v Hin C) as [Q1 Q2].
      assert (A1 : nth_error vars (Z.to_nat v) = Some w) by (rewrite Q1; apply pos_of_nonneg; lia).
      assert (A2 : nth_error vars (Z.to_nat v) = Some nk) by (rewrite <- Hp; apply pos_of_nonneg; lia).
      assert (w = nk) by congruence. subst w. exists n, names, nk, nsk. split; [exact Hi|]. split; [reflexivity|]. split; [|exact C].
      rewrite <- Em. apply in_map_iff. exists (nk, v). auto.
    + intros (Hne & n & names & nk & nsk & Hi & Hk & Hin & C). split; [exact Hne|].
      destruct (g_objs _ _ _ G i n names Hi) as (o & Ho & Em & P). rewrite <- Em in Hin.
      apply in_map_iff in Hin as ([w p] & Ew & Hin). cbn in Ew. subst w. destruct (P nk p Hin C) as [Q1 Q2].
      exists p. split.
      * unfold endo_of. rewrite (g_xk _ _ _ G), nth_error_map, Hk. cbn. now rewrite Q1.
      * exists o, nk. auto.
  - intros W i (o & w & v & Ho & Hin & C). destruct (Obj i o Ho) as (n & names & Hi & Em & _).
    rewrite (W n names w) in C; [discriminate|now apply nth_error_In in Hi|]. rewrite <- Em. apply in_map_iff. exists (w, v). auto.
Qed.

Lemma link_model_ok vars scl eqs : NoDup vars -> NoDup (map fst eqs) ->
  exists r, link_model vars scl eqs = Ok r /\ forall m, r = Some m -> fresh eqs m.
Proof.
  intros NV NE. unfold link_model. destruct (link_loop_ok vars scl eqs [] (mkM [] [] (map (fun _ => -1) vars))) as (r & E & H).
  - constructor; unfold endo_of; cbn [objs posxk posrev length map]; auto.
    + apply map_length.
    + intros v e Hv. left. apply nth_error_In, in_map_iff in Hv as (? & <- & _). reflexivity.
    + intros [|k] v Hv; discriminate.
    + intros [|i] n ns Hi; discriminate.
  - exact NE.
  - rewrite len_nil in E. exists r. split; [exact E|]. intros m Q. eapply good_fresh; [exact NV|exact NE|]. exact (H m Q).
Qed.

Lemma link_endos_fresh eqs : NoDup (map fst eqs) -> fresh eqs (link_endos eqs).
Proof.
  intros NE. unfold link_endos. set (ids := map Z.of_nat (seq 0 (length eqs))).
  assert (Id : forall k v, nth_error ids k = Some v <-> (k < length eqs)%nat /\ v = Z.of_nat k).
  { intros k v. unfold ids. rewrite nth_error_map. split.
    - destruct (nth_error (seq 0 (length eqs)) k) as [j|] eqn:E; [|discriminate]. cbn. intros H; inversion H; subst.
      assert (Hl := nth_lt _ _ _ E). rewrite seq_length in Hl.
      rewrite (nth_error_nth' _ 0%nat) in E by (rewrite seq_length; exact Hl). rewrite seq_nth in E by exact Hl.
      assert (j = k) by (now inversion E). subst j. auto.
    - intros [Hl ->]. rewrite (nth_error_nth' _ 0%nat) by (rewrite seq_length; exact Hl). rewrite seq_nth by exact Hl. reflexivity. }
  set (dbe := map fst eqs) in *. set (m := mkM _ _ _).
  assert (Obj : forall i o, nth_error (objs m) i = Some o -> exists n names, nth_error eqs i = Some (n, names) /\
            o = map (fun n => (n, if is_coefficient n then 0 else pos_of dbe n)) names).
  { intros i o H. unfold m in H. cbn [objs] in H. rewrite nth_error_map in H. destruct (nth_error eqs i) as [[n names]|]; [|discriminate].
    cbn in H. inversion H. eauto. }
  assert (Ids_len : length ids = length eqs) by (unfold ids; rewrite map_length; apply seq_length).
  split; [|split; [|split; [|split]]].
  - constructor; unfold m, endo_of; cbn [objs posxk posrev].
    + rewrite Ids_len, map_length. reflexivity.
    + intros k v H. apply Id in H as [Hl ->]. split; [lia|]. rewrite Nat2Z.id. apply Id. auto.
    + intros v e H. apply Id in H as [Hl ->]. unfold len. rewrite map_length. lia.
    + intros i v (o & w & Ho & Hin & C). destruct (Obj i o Ho) as (n & names & _ & ->).
      apply in_map_iff in Hin as (w' & Q & _). inversion Q; subst. rewrite C.
      assert (B := pos_of_min dbe w). assert (Ld : length dbe = length eqs) by apply map_length. unfold len in *. rewrite Ids_len. lia.
  - intros v e H He. unfold m, endo_of in *. cbn [posrev posxk] in *. apply Id in H as [Hl ->]. rewrite Nat2Z.id. apply Id. auto.
  - unfold m. cbn [objs]. apply map_length.
  - intros i k. split.
    + intros (Hne & v & Hv & o & w & Ho & Hin & C). split; [exact Hne|]. destruct (Obj i o Ho) as (n & names & Hi & ->).
      apply in_map_iff in Hin as (w' & Q & Hin). inversion Q; subst w' v. rewrite C in *.
      unfold m, endo_of in Hv. cbn [posxk] in Hv. apply Id in Hv as [Hl Hv].
      assert (Q0 : 0 <= pos_of dbe w) by lia. apply pos_of_nonneg in Q0. rewrite Hv, Nat2Z.id in Q0.
      unfold dbe in Q0. rewrite nth_error_map in Q0. destruct (nth_error eqs k) as [[nk nsk]|]; [|discriminate].
      cbn in Q0. inversion Q0; subst nk. exists n, names, w, nsk. auto.
    + intros (Hne & n & names & nk & nsk & Hi & Hk & Hin & C). split; [exact Hne|].
      assert (Ek : nth_error dbe k = Some nk) by (unfold dbe; rewrite nth_error_map, Hk; reflexivity).
      assert (Ep := pos_of_nth dbe k nk NE Ek). exists (Z.of_nat k). split.
      * unfold m, endo_of. cbn [posxk]. apply Id. split; [now apply nth_lt in Hk|reflexivity].
      * eexists. exists nk. split; [unfold m; cbn [objs]; rewrite nth_error_map, Hi; reflexivity|]. split; [|exact C].
        cbn [snd]. apply in_map_iff. exists nk. rewrite C, Ep. auto.
  - intros W i (o & w & v & Ho & Hin & C). destruct (Obj i o Ho) as (n & names & Hi & ->).
    apply in_map_iff in Hin as (w' & Q & Hin). inversion Q; subst w'.
    rewrite (W n names w) in C; [discriminate|now apply nth_error_In in Hi|exact Hin].
Qed.

Lemma model_of_fresh eqs m : NoDup (map fst eqs) -> model_of eqs m -> fresh eqs m.
Proof.
  intros N [(vars & scl & NV & E)|E]; [|subst m; now apply link_endos_fresh].
  destruct (link_model_ok vars scl eqs NV N) as (r & E' & H). rewrite E in E'. inversion E'; subst. now apply H.
Qed.

(** * The theorems, by names *)

Lemma order_c37 eqs m dbe given sort passes : NoDup (map fst eqs) -> model_of eqs m ->
  (sort = SORT_NONE -> dbe = map fst eqs /\ (given = [] \/ Permutation given dbe)) ->
  exists o, order m dbe given sort passes = Ok o /\
    Permutation (o_order o) (map Z.of_nat (seq 0 (length eqs))) /\
    0 <= o_pre o /\ 0 <= o_inter o /\ 0 <= o_post o /\ o_pre o + o_inter o + o_post o = Z.of_nat (length eqs).
Proof.
  intros N M Hs. destruct (model_of_fresh eqs m N M) as (L & X & Le & _).
  assert (D : sort = SORT_NONE \/ sort <> SORT_NONE) by (destruct sort; [right|right|left]; congruence).
  destruct D as [->|D].
  - destruct (Hs eq_refl) as [-> [->|P]]; cbn [order].
    + eexists. split; [reflexivity|]. cbn [o_order o_pre o_inter o_post]. rewrite Le. split; [apply Permutation_refl|].
      unfold nb_eqs, len. rewrite Le. lia.
    + assert (Lg : length given = length (objs m)).
      { rewrite Le. apply Permutation_length in P. now rewrite map_length in P. }
      assert (Eo : exists l, given_order (map fst eqs) given (length (objs m)) = Ok l /\ Permutation l (map Z.of_nat (seq 0 (length eqs)))).
      { rewrite given_ok by exact Lg. eexists. split; [reflexivity|].
        apply Permutation_trans with (map (pos_of (map fst eqs)) (map fst eqs)); [now apply Permutation_map|].
        assert (Q : map (pos_of (map fst eqs)) (map fst eqs) = map Z.of_nat (seq 0 (length eqs))); [|rewrite Q; apply Permutation_refl].
        apply nth_error_ext. intros k. rewrite !nth_error_map. destruct (nth_error eqs k) as [[n ns]|] eqn:Ek.
        - cbn. assert (Hl := nth_lt _ _ _ Ek). rewrite (nth_error_nth' _ 0%nat) by (rewrite seq_length; exact Hl).
          rewrite seq_nth by exact Hl. cbn. f_equal. apply pos_of_nth; [exact N|]. rewrite nth_error_map, Ek. reflexivity.
        - cbn. apply nth_error_None in Ek. assert (Q : nth_error (seq 0 (length eqs)) k = None) by (apply nth_error_None; now rewrite seq_length).
          now rewrite Q. }
      destruct Eo as (l & El & Pl). destruct given as [|g given].
      * eexists. split; [reflexivity|]. cbn [o_order o_pre o_inter o_post]. rewrite Le. split; [apply Permutation_refl|].
        unfold nb_eqs, len. rewrite Le. lia.
      * rewrite El. cbn [rbind]. eexists. split; [reflexivity|]. cbn [o_order o_pre o_inter o_post]. split; [exact Pl|].
        unfold nb_eqs, len. rewrite Le. lia.
  - destruct (order_permutation m dbe given sort passes L D) as (o & E & P & A & B & C & S). exists o.
    unfold equations in P. rewrite Le in P. unfold len in S. rewrite Le in S. auto 10.
Qed.

Lemma order_c38 eqs m dbe given sort passes o : NoDup (map fst eqs) -> model_of eqs m -> sort <> SORT_NONE ->
  order m dbe given sort passes = Ok o ->
  forall i k a b, reads eqs i k -> at_rank o a i -> at_rank o b k ->
    (Z.of_nat a < o_pre o -> (b < a)%nat) /\ (o_pre o + o_inter o <= Z.of_nat b -> (b < a)%nat).
Proof.
  intros N M D E i k a b R. destruct (model_of_fresh eqs m N M) as (L & X & Le & U & _). apply U in R.
  now apply (order_respects m dbe given sort passes o L D E).
Qed.

Lemma clos_mono (A : Type) (R S : A -> A -> Prop) : (forall x y, R x y -> S x y) -> forall x y, clos_trans A R x y -> clos_trans A S x y.
Proof. intros H x y T. induction T as [? ? Q|? ? ? _ IH1 _ IH2]; [now apply t_step, H|]. eapply t_trans; eauto. Qed.

Lemma order_c39 eqs m dbe given sort passes o : NoDup (map fst eqs) -> model_of eqs m -> sort <> SORT_NONE ->
  no_simultaneity eqs -> order m dbe given sort passes = Ok o ->
  o_inter o = 0 /\ (forall i k a b, reads eqs i k -> at_rank o a i -> at_rank o b k -> (b < a)%nat) /\
  (without_coefficients eqs -> o_pre o = Z.of_nat (length eqs)).
Proof.
  intros N M D S E. destruct (model_of_fresh eqs m N M) as (L & X & Le & U & W).
  assert (R : recursive m). { intros i C. apply (S i). revert C. apply clos_mono. intros x y. apply U. }
  assert (I0 := recursive_no_inter m dbe given sort passes o L X R D E). split; [exact I0|]. split.
  - intros i k a b Q Ha Hb. destruct (order_c38 eqs m dbe given sort passes o N M D E i k a b Q Ha Hb) as [H1 H2].
    destruct (Z.lt_ge_cases (Z.of_nat a) (o_pre o)) as [Ha'|Ha']; [now apply H1|].
    destruct (Z.lt_ge_cases (Z.of_nat b) (o_pre o)) as [Hb'|Hb']; [lia|]. apply H2. lia.
  - intros WC. rewrite <- Le. apply (recursive_prolog m dbe given sort passes o L X R (W WC) D E).
Qed.

Lemma order_given eqs m given passes : NoDup (map fst eqs) -> model_of eqs m ->
  given = [] \/ Permutation given (map fst eqs) ->
  exists o, order m (map fst eqs) given SORT_NONE passes = Ok o /\ o_inter o = Z.of_nat (length eqs) /\
    forall r n ns, nth_error (match given with [] => map fst eqs | _ => given end) r = Some n ->
      forall e, nth_error eqs e = Some (n, ns) -> at_rank o r e.
Proof.
  intros N M P. destruct (model_of_fresh eqs m N M) as (L & X & Le & _). cbn [order]. destruct given as [|g given].
  - eexists. split; [reflexivity|]. cbn [o_order o_inter]. split; [unfold nb_eqs, len; now rewrite Le|].
    intros r n ns Hr e He. unfold at_rank. cbn [o_order]. assert (r = e).
    { apply (proj1 (NoDup_nth_error (map fst eqs)) N); [now apply nth_lt in Hr|]. rewrite Hr, nth_error_map, He. reflexivity. }
    subst r. rewrite nth_error_map, (nth_error_nth' _ 0%nat), seq_nth; [reflexivity| |rewrite seq_length]; rewrite Le; now apply nth_lt in He.
  - destruct P as [P|P]; [discriminate|]. set (gs := g :: given) in *.
    rewrite given_ok by (rewrite Le; apply Permutation_length in P; now rewrite map_length in P).
    cbn [rbind]. eexists. split; [reflexivity|]. cbn [o_order o_inter]. split; [unfold nb_eqs, len; now rewrite Le|].
    intros r n ns Hr e He. unfold at_rank. cbn [o_order]. rewrite nth_error_map, Hr. cbn. f_equal.
    apply pos_of_nth; [exact N|]. rewrite nth_error_map, He. reflexivity.
Qed.
