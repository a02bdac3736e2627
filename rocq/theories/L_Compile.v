(** Proofs about M_Compile. *)
From Coq Require Import ZArith Ascii String List Bool Lia.
From Verif Require Import M_Base M_Time M_Names M_Lex M_Compile S_Lec.
Import ListNotations.
Open Scope Z_scope.
Local Arguments Z.add : simpl never.
Local Arguments Z.sub : simpl never.

Lemma strength_prior o : strength o = prior o.
Proof. destruct o; reflexivity. Qed.

Fixpoint pend (e : ex) : ostack :=
  match e with
  | EPre f e => pend e ++ [(S_F f, 1)]
  | EApp f args _ => [(S_F f, Z.of_nat (length args))]
  | EBin o a b => pend b ++ [(S_OP o, 1)]
  | _ => []
  end.
Fixpoint done (e : ex) : list atom :=
  match e with
  | EPre f e => done e
  | EApp f args sfx => groups sfx (map rpn args)
  | EBin o a b => rpn a ++ done b
  | e => rpn e
  end.
Definition emit (x : sop * Z) : atom :=
  match x with (S_OPENP, _) => A_OPENP | (S_OP o, _) => A_OP o | (S_F f, nb) => A_F f nb end.

Lemma rpn_done e : rpn e = done e ++ map emit (pend e).
Proof.
  induction e using ex_ind2; simpl; rewrite ?app_nil_r; auto.
  - rewrite IHe at 1. rewrite map_app, app_assoc. reflexivity.
  - rewrite IHe2 at 1. rewrite map_app, !app_assoc. reflexivity.
Qed.

Definition fine (x : sop * Z) : Prop :=
  match x with
  | (S_OPENP, _) => False
  | (S_OP _, _) => True
  | (S_F f, nb) => min_args f <= nb <= max_args f
  end.
Definition above (n : Z) (x : sop * Z) : Prop :=
  match x with (S_OP o, _) => n <= prior o | _ => True end.

Lemma reading_all args :
  (fix all (l : list ex) : Prop := match l with [] => True | e :: l' => reading e /\ all l' end) args
  <-> Forall reading args.
Proof.
  induction args as [|a l IH]; split; intro H; auto.
  - constructor; [apply H|apply IH, H].
  - inversion H; subst. split; [assumption|apply IH; assumption].
Qed.

(** A tree as [reading], whatever the strengths of its operators. *)
Fixpoint shape (e : ex) : Prop :=
  match e with
  | ELeaf _ => True
  | EPar e => shape e
  | ESfx e _ => shape e /\ level e = 9
  | EPre f e => shape e /\ min_args f <= 1 <= max_args f
  | EApp f args _ =>
    (fix all (l : list ex) : Prop := match l with [] => True | e :: l' => shape e /\ all l' end) args /\
    (2 <= length args)%nat /\ min_args f <= Z.of_nat (length args) <= max_args f
  | EBin o a b => shape a /\ shape b
  end.
Lemma shape_all args :
  (fix all (l : list ex) : Prop := match l with [] => True | e :: l' => shape e /\ all l' end) args
  <-> Forall shape args.
Proof.
  induction args as [|a l IH]; split; intro H; auto.
  - constructor; [apply H|apply IH, H].
  - inversion H; subst. split; [assumption|apply IH; assumption].
Qed.
Lemma reading_shape e : reading e -> shape e.
Proof.
  induction e using ex_ind2; cbn [reading shape]; auto; try tauto.
  rewrite reading_all, shape_all. intros (R & R2 & R3 & _). split; [|auto].
  rewrite Forall_forall in *. auto.
Qed.

Lemma pend_fine e : reading e -> Forall fine (pend e).
Proof.
  induction e using ex_ind2; simpl; intro R; auto.
  - apply Forall_app; split; [tauto|]. constructor; [simpl; lia|constructor].
  - constructor; [|constructor]. simpl. lia.
  - apply Forall_app; split; [tauto|]. constructor; simpl; auto.
Qed.
Lemma above_le n m x : n <= m -> above m x -> above n x.
Proof. destruct x as [[]]; simpl; auto; lia. Qed.
Lemma pend_above e n : reading e -> n <= level e -> Forall (above n) (pend e).
Proof.
  revert n. induction e using ex_ind2; simpl; intros n R L; auto.
  - apply Forall_app; split; [apply IHe; [tauto|lia]|]. constructor; simpl; auto.
  - constructor; simpl; auto.
  - rewrite strength_prior in *. apply Forall_app; split; [apply IHe2; [tauto|lia]|].
    constructor; simpl; auto.
Qed.

Lemma save_fine x rex : fine x -> save_op x rex = Some (emit x :: rex).
Proof.
  destruct x as [[|o|f] nb]; simpl; try tauto. intros H.
  destruct (Z.ltb_spec (max_args f) nb), (Z.ltb_spec nb (min_args f)); simpl; try lia. reflexivity.
Qed.

Lemma pop_prio_app o l rex ops : Forall fine l -> Forall (above (prior o)) l ->
  pop_prio o rex (l ++ ops) = pop_prio o (rev (map emit l) ++ rex) ops.
Proof.
  revert rex. induction l as [|x l IH]; intros rex F A; [reflexivity|].
  inversion F; inversion A; subst. cbn [app pop_prio].
  replace (priority_sup o (x :: l ++ ops)) with true.
  - rewrite save_fine by assumption. rewrite IH by assumption. cbn [map rev]. rewrite <- app_assoc. reflexivity.
  - destruct x as [[|o'|f] nb]; simpl in *; try tauto. symmetry. apply Z.leb_le. lia.
Qed.
Lemma pop_close_app l rex ops : Forall fine l ->
  pop_close rex (l ++ ops) = pop_close (rev (map emit l) ++ rex) ops.
Proof.
  revert rex. induction l as [|x l IH]; intros rex F; [reflexivity|].
  inversion F; subst. cbn [app pop_close].
  destruct x as [[|o'|f] nb] eqn:E; [simpl in H1; tauto| |];
    (rewrite save_fine by assumption; rewrite IH by assumption; cbn [map rev];
     rewrite <- app_assoc; reflexivity).
Qed.
Lemma pop_all_app l rex : Forall fine l -> pop_all rex l = P_ok (rev (map emit l) ++ rex) [].
Proof.
  revert rex. induction l as [|x l IH]; intros rex F; [reflexivity|].
  inversion F; subst. simpl. rewrite save_fine by assumption. rewrite IH by assumption.
  rewrite <- app_assoc. reflexivity.
Qed.

(** Nothing on the stack is popped by an operator of strength at least [n]. *)
Definition ctx (ops : ostack) (n : Z) : Prop := forall o, n <= prior o -> priority_sup o ops = false.
Lemma ctx_openp k ops n : ctx ((S_OPENP, k) :: ops) n.
Proof. intros o _. reflexivity. Qed.
Lemma ctx_8 ops n : 8 <= n -> ctx ops n.
Proof. intros H o Ho. destruct o; simpl in *; lia. Qed.
Lemma ctx_le ops n m : n <= m -> ctx ops n -> ctx ops m.
Proof. intros L C o Ho. apply C. lia. Qed.
Lemma ctx_op o k ops n : prior o < n -> ctx ((S_OP o, k) :: ops) n.
Proof. intros H o' Ho'. simpl. apply Z.leb_gt. lia. Qed.
Lemma pop_prio_stop o rex ops : priority_sup o ops = false -> pop_prio o rex ops = P_ok rex ops.
Proof. intros H. destruct ops; simpl in *; [reflexivity|]. rewrite H. reflexivity. Qed.

(** Sub-expressions: a complete group is found whole. *)
Definition par_of (a : atom) : Z := match a with A_OPENP => -1 | A_CLOSEP => 1 | _ => 0 end.
Fixpoint depth (l : list atom) : Z := match l with [] => 0 | a :: l' => par_of a + depth l' end.
(** Balanced for a backward scan: the depth of every non-empty suffix part is not negative. *)
Definition bal (r : list atom) : Prop := depth r = 0 /\ forall k, 0 <= depth (firstn k r).
Lemma depth_app a b : depth (a ++ b) = depth a + depth b.
Proof. induction a; simpl; lia. Qed.
Lemma bal_app a b : bal a -> bal b -> bal (a ++ b).
Proof.
  intros [A1 A2] [B1 B2]. split; [rewrite depth_app; lia|]. intros k. rewrite firstn_app, depth_app.
  specialize (A2 k). specialize (B2 (k - length a)%nat). lia.
Qed.
Lemma bal_single a : par_of a = 0 -> bal [a].
Proof. intros H. split; simpl; [lia|]. intros [|[|k]]; simpl; lia. Qed.
Lemma bal_group r : bal r -> bal (A_CLOSEP :: r ++ [A_OPENP]).
Proof.
  intros [R1 R2]. split.
  - simpl. rewrite depth_app. simpl. lia.
  - intros [|k]; simpl; [lia|]. rewrite firstn_app, depth_app. specialize (R2 k).
    destruct (k - length r)%nat eqn:E; simpl; [lia|].
    assert (depth (firstn k r) = depth r) by (rewrite firstn_all2 by lia; reflexivity).
    rewrite firstn_nil. simpl. lia.
Qed.
Lemma bal_map f r : (forall a, par_of (f a) = par_of a) -> bal r -> bal (map f r).
Proof.
  intros H. assert (D : forall l, depth (map f l) = depth l) by (induction l; simpl; rewrite ?H; lia).
  intros [R1 R2]. split; [rewrite D; assumption|]. intros k. rewrite firstn_map, D. apply R2.
Qed.
Lemma par_sfx s a : par_of (sfx_atom s a) = par_of a.
Proof. destruct s; destruct a; simpl; auto; destruct (step p =? 0) eqn:E; try reflexivity; destruct (step p0 =? 0); reflexivity. Qed.

Lemma group_rev x : rev (group x) = A_CLOSEP :: rev x ++ [A_OPENP].
Proof. unfold group. simpl. rewrite rev_app_distr. reflexivity. Qed.
Lemma sfx_all_rev sfx x : rev (sfx_all sfx x) = sfx_all sfx (rev x).
Proof.
  unfold sfx_all. revert x. induction sfx as [|s l IH]; intros x; simpl; [reflexivity|].
  rewrite IH, map_rev. reflexivity.
Qed.
Lemma bal_sfx_all sfx x : bal x -> bal (sfx_all sfx x).
Proof.
  unfold sfx_all. revert x. induction sfx as [|s l IH]; intros x B; simpl; [assumption|].
  apply IH, bal_map; [apply par_sfx|assumption].
Qed.
Lemma bal_groups sfx l : Forall (fun x => bal (rev x)) l -> bal (rev (groups sfx l)).
Proof.
  induction l as [|x l IH]; intros F; [split; simpl; [reflexivity|intros []; simpl; lia]|].
  inversion F; subst. destruct l as [|y l].
  - cbn [groups]. rewrite sfx_all_rev. apply bal_sfx_all. rewrite group_rev. apply bal_group. assumption.
  - change (groups sfx (x :: y :: l)) with (group x ++ groups sfx (y :: l)). rewrite rev_app_distr.
    apply bal_app; [apply IH; assumption|]. rewrite group_rev. apply bal_group. assumption.
Qed.
Lemma bal_rpn e : bal (rev (rpn e)).
Proof.
  induction e using ex_ind2; simpl.
  - apply bal_single. destruct l; reflexivity.
  - fold (group (rpn e)). change (A_OPENP :: rpn e ++ [A_CLOSEP]) with (group (rpn e)).
    change (rev (rpn e ++ [A_CLOSEP]) ++ [A_OPENP]) with (rev (group (rpn e))). rewrite group_rev.
    apply bal_group. assumption.
  - rewrite <- map_rev. apply bal_map; [apply par_sfx|assumption].
  - rewrite rev_app_distr. apply (bal_app [A_F f 1]); [apply bal_single; reflexivity|assumption].
  - rewrite rev_app_distr. apply (bal_app [A_F f _]); [apply bal_single; reflexivity|].
    apply bal_groups. apply Forall_map. assumption.
  - rewrite !rev_app_distr. apply bal_app; [|assumption].
    apply (bal_app [A_OP o]); [apply bal_single; reflexivity|assumption].
Qed.

Lemma scan_bal r : forall p need rest, bal r -> 0 < p ->
  sub_count (r ++ rest) p need = option_map (fun k => (length r + k)%nat) (sub_count rest p need).
Proof.
  assert (G : forall r p need rest, 0 < p + depth r -> (forall k, 0 < p + depth (firstn k r)) ->
    sub_count (r ++ rest) p need = option_map (fun k => (length r + k)%nat) (sub_count rest (p + depth r) need)).
  { clear r. induction r as [|a r IH]; intros p need rest H1 H2.
    - simpl. replace (p + 0) with p by lia. destruct (sub_count rest p need); reflexivity.
    - cbn [app sub_count]. pose proof (H2 1%nat) as Hp. simpl in Hp.
      set (p' := match a with A_OPENP => p - 1 | A_CLOSEP => p + 1 | _ => p end).
      assert (P' : p' = p + par_of a) by (unfold p'; destruct a; simpl; lia).
      destruct (Z.ltb_spec 0 p'); [|lia].
      rewrite IH.
      + replace (p' + depth r) with (p + depth (a :: r)) by (simpl; lia).
        destruct (sub_count rest _ need); reflexivity.
      + simpl in H1. lia.
      + intros k. specialize (H2 (S k)). simpl in H2. lia. }
  intros p need rest [B1 B2] Hp. rewrite G; [rewrite B1; replace (p + 0) with p by lia; reflexivity|lia|].
  intros k. specialize (B2 k). lia.
Qed.
Lemma scan_group r rest : bal r ->
  sub_count ((A_CLOSEP :: r ++ [A_OPENP]) ++ rest) 0 0 = Some (length r + 2)%nat.
Proof.
  intros B. cbn [sub_count app]. rewrite <- app_assoc. simpl (0 <? 0 + 1). rewrite scan_bal by (auto; lia).
  simpl. f_equal. lia.
Qed.
Lemma scan_map f : (forall a, par_of (f a) = par_of a) ->
  (forall a, match a with A_OP _ => f a = a | A_F _ _ => f a = a | _ => match f a with A_OP _ | A_F _ _ => False | _ => True end end) ->
  forall r p need rest, sub_count (map f r ++ rest) p need = sub_count (r ++ rest) p need.
Proof.
  intros H1 H2. induction r as [|a r IH]; intros p need rest; [reflexivity|].
  cbn [map app sub_count]. specialize (H1 a). specialize (H2 a).
  assert (E : match f a with A_OPENP => p - 1 | A_CLOSEP => p + 1 | _ => p end =
              match a with A_OPENP => p - 1 | A_CLOSEP => p + 1 | _ => p end)
    by (destruct (f a), a; simpl in *; try reflexivity; try discriminate).
  rewrite E. set (p' := match a with A_OPENP => p - 1 | A_CLOSEP => p + 1 | _ => p end).
  rewrite !IH. destruct (0 <? p'); [reflexivity|].
  destruct (f a) eqn:Fa; destruct a; try tauto; try discriminate;
    try (injection H2; intros; subst); rewrite ?IH; try reflexivity; destruct need; rewrite ?IH; reflexivity.
Qed.
Lemma sfx_kind s a :
  match a with A_OP _ => sfx_atom s a = a | A_F _ _ => sfx_atom s a = a
  | _ => match sfx_atom s a with A_OP _ | A_F _ _ => False | _ => True end end.
Proof. destruct s as [[] n|q]; destruct a as [| | |nm lg pp| | | | | | |]; simpl; auto; destruct (step pp =? 0); exact I. Qed.

Lemma scan_primary e rest : shape e -> level e = 9 ->
  sub_count (rev (rpn e) ++ rest) 0 0 = Some (length (rpn e)).
Proof.
  induction e using ex_ind2; simpl; intros R L; try lia; try (destruct o; discriminate).
  - destruct l; reflexivity.
  - change (rev (rpn e ++ [A_CLOSEP]) ++ [A_OPENP]) with (rev (group (rpn e))). rewrite group_rev.
    rewrite scan_group by apply bal_rpn.
    rewrite rev_length, app_length. simpl. f_equal. lia.
  - rewrite <- map_rev, map_length, scan_map; [apply IHe; tauto|apply par_sfx|apply sfx_kind].
Qed.
Lemma scan_sfx_group sfx x rest : bal (rev x) ->
  sub_count (rev (sfx_all sfx (group x)) ++ rest) 0 0 = Some (length (group x)).
Proof.
  intros B. rewrite sfx_all_rev.
  assert (G : forall sfx y, sub_count (sfx_all sfx y ++ rest) 0 0 = sub_count (y ++ rest) 0 0).
  { clear. induction sfx as [|s sfx IH]; intros y; [reflexivity|].
    unfold sfx_all in *. simpl. rewrite IH. apply scan_map; [apply par_sfx|apply sfx_kind]. }
  rewrite G, group_rev. rewrite scan_group by assumption.
  unfold group. simpl. rewrite rev_length, app_length. simpl. f_equal. lia.
Qed.

Lemma on_last_app f r rest : r <> [] -> sub_count (r ++ rest) 0 0 = Some (length r) ->
  on_last_sub f (r ++ rest) = Some (map f r ++ rest).
Proof.
  intros N H. unfold on_last_sub. destruct (r ++ rest) eqn:E; [destruct r; [tauto|discriminate]|].
  rewrite H, <- E, firstn_app, Nat.sub_diag, firstn_all, skipn_app, Nat.sub_diag, skipn_all.
  simpl. rewrite app_nil_r. reflexivity.
Qed.

Lemma gen_sfx s toks r rest ops par start : r <> [] -> sub_count (r ++ rest) 0 0 = Some (length r) ->
  gen (sfx_tokens s ++ toks) (r ++ rest) ops par false start =
  gen toks (map (sfx_atom s) r ++ rest) ops par false false.
Proof.
  intros N H. destruct s as [neg n|p]; simpl.
  - destruct neg; rewrite on_last_app by assumption; reflexivity.
  - rewrite on_last_app by assumption. reflexivity.
Qed.
Lemma rpn_nil e : rpn e <> [].
Proof.
  induction e using ex_ind2; simpl; try discriminate.
  - intros E. apply map_eq_nil in E. tauto.
  - intros E. apply app_eq_nil in E. destruct E; discriminate.
  - intros E. apply app_eq_nil in E. destruct E; discriminate.
  - intros E. apply app_eq_nil in E. tauto.
Qed.
Lemma rev_nil {A} (l : list A) : l <> [] -> rev l <> [].
Proof. destruct l; simpl; [tauto|]. intros _ E. apply app_eq_nil in E. destruct E; discriminate. Qed.

Lemma sfx_all_length pre : forall y, length (sfx_all pre y) = length y.
Proof. unfold sfx_all. induction pre as [|q pre IH]; simpl; auto. intros y. rewrite IH, map_length. reflexivity. Qed.
Lemma gen_sfxs sfx : forall toks x rest ops par, bal (rev x) ->
  forall pre, gen (flat_map sfx_tokens sfx ++ toks) (rev (sfx_all pre (group x)) ++ rest) ops par false false =
  gen toks (rev (sfx_all (pre ++ sfx) (group x)) ++ rest) ops par false false.
Proof.
  induction sfx as [|s sfx IH]; intros toks x rest ops par B pre; [rewrite app_nil_r; reflexivity|].
  simpl. rewrite <- app_assoc. rewrite gen_sfx.
  - rewrite map_rev. replace (map (sfx_atom s) (sfx_all pre (group x))) with (sfx_all (pre ++ [s]) (group x))
      by (unfold sfx_all; rewrite fold_left_app; reflexivity).
    rewrite IH by assumption. rewrite <- app_assoc. reflexivity.
  - apply rev_nil. intros C. apply (f_equal (@length _)) in C. rewrite sfx_all_length in C. discriminate.
  - rewrite scan_sfx_group by assumption. rewrite rev_length, sfx_all_length. reflexivity.
Qed.

Lemma gen_args f : forall es n toks rex ops par, es <> [] -> Forall reading es ->
  Forall (fun e => forall toks rex ops par start, ctx ops (level e) ->
    gen (written e ++ toks) rex ops par true start =
    gen toks (rev (done e) ++ rex) (pend e ++ ops) par false false) es ->
  gen (sep T_COMMA (map written es) ++ T_CLOSEP :: toks) (A_OPENP :: rex)
    ((S_OPENP, 0) :: (S_F f, n) :: ops) par true false =
  gen toks (rev (groups [] (map rpn es)) ++ rex) ((S_F f, n + Z.of_nat (length es) - 1) :: ops) (par - 1) false false.
Proof.
  induction es as [|e es IH]; intros n toks rex ops par N R F; [tauto|].
  inversion R; inversion F; subst.
  assert (E1 : forall rest, rev (map emit (pend e)) ++ rev (done e) ++ A_OPENP :: rest =
                            rev (rpn e) ++ A_OPENP :: rest).
  { intros rest. rewrite rpn_done, rev_app_distr, <- app_assoc. reflexivity. }
  assert (E2 : forall rest, A_CLOSEP :: rev (rpn e) ++ A_OPENP :: rest = rev (group (rpn e)) ++ rest).
  { intros rest. rewrite group_rev. simpl. rewrite <- app_assoc. reflexivity. }
  destruct es as [|e' es].
  - cbn [map sep groups]. rewrite H5 by apply ctx_openp. cbn [gen].
    rewrite pop_close_app by (apply pend_fine; assumption). cbn [pop_close]. rewrite E1, E2.
    simpl length. replace (n + Z.of_nat 1 - 1) with n by lia. reflexivity.
  - change (sep T_COMMA (map written (e :: e' :: es))) with
      (written e ++ T_COMMA :: sep T_COMMA (map written (e' :: es))).
    rewrite <- app_assoc. rewrite H5 by apply ctx_openp. cbn [app gen].
    rewrite pop_close_app by (apply pend_fine; assumption). cbn [pop_close]. rewrite E1, E2.
    rewrite IH by (auto; discriminate).
    change (groups [] (map rpn (e :: e' :: es))) with (group (rpn e) ++ groups [] (map rpn (e' :: es))).
    rewrite rev_app_distr, <- app_assoc.
    replace (n + 1 + Z.of_nat (length (e' :: es)) - 1) with (n + Z.of_nat (length (e :: e' :: es)) - 1)
      by (simpl length; lia). reflexivity.
Qed.
Lemma groups_split sfx l : l <> [] -> exists pre x, In x l /\
  (forall s, groups s l = pre ++ sfx_all s (group x)) /\ groups sfx l = pre ++ sfx_all sfx (group x).
Proof.
  induction l as [|x l IH]; [tauto|]. intros _. destruct l as [|y l].
  - exists [], x. repeat split; auto. left; reflexivity.
  - destruct IH as (pre & z & I & E1 & E2); [discriminate|]. exists (group x ++ pre), z.
    split; [right; assumption|].
    assert (G : forall s, groups s (x :: y :: l) = (group x ++ pre) ++ sfx_all s (group z)).
    { intros s. change (groups s (x :: y :: l)) with (group x ++ groups s (y :: l)). rewrite E1, app_assoc. reflexivity. }
    split; auto.
Qed.

Theorem gen_written e : reading e -> forall toks rex ops par start, ctx ops (level e) ->
  gen (written e ++ toks) rex ops par true start =
  gen toks (rev (done e) ++ rex) (pend e ++ ops) par false false.
Proof.
  induction e using ex_ind2; intros R toks rex ops par start C.
  - destruct l; reflexivity.
  - cbn [written app gen negb done pend rpn]. rewrite <- app_assoc. simpl in R.
    rewrite IHe by (auto using ctx_openp). cbn [app gen].
    rewrite pop_close_app by (apply pend_fine; assumption). cbn [pop_close].
    rewrite group_rev. cbn [app]. rewrite <- !app_assoc. replace (par + 1 - 1) with par by lia.
    rewrite rpn_done, rev_app_distr, <- app_assoc. reflexivity.
  - simpl in R. destruct R as [R L]. cbn [written]. rewrite <- app_assoc.
    rewrite IHe by (auto; apply ctx_8; lia).
    assert (D : done e = rpn e /\ pend e = []) by (destruct e; simpl in L; auto; try lia; destruct o; discriminate).
    destruct D as [D1 D2]. rewrite D1, D2. cbn [app done pend rpn].
    rewrite gen_sfx; [rewrite <- map_rev; reflexivity|apply rev_nil, rpn_nil|].
    rewrite rev_length. apply scan_primary; [apply reading_shape|]; assumption.
  - simpl in R. destruct R as (R & L & A). cbn [written app done pend].
    rewrite <- app_assoc. cbn [app].
    assert (G : forall st, gen (func_token f :: written e ++ toks) rex ops par true st =
                gen (written e ++ toks) rex ((S_F f, 1) :: ops) par true false).
    { intros st. destruct f as [f|f|f]; try reflexivity. destruct f; reflexivity. }
    rewrite G. apply IHe; [assumption|apply ctx_8; lia].
  - cbn [reading] in R. rewrite reading_all in R. destruct R as (R & N & A & NU & NP).
    cbn [written app done pend].
    assert (G : forall tk st, gen (func_token f :: tk) rex ops par true st =
                gen tk rex ((S_F f, 1) :: ops) par true false).
    { intros tk st. destruct f as [f|f|f]; try reflexivity. destruct f; try reflexivity; congruence. }
    rewrite G. clear G. cbn [gen negb]. rewrite <- app_assoc. cbn [app].
    rewrite gen_args; auto.
    + replace (1 + Z.of_nat (length args) - 1) with (Z.of_nat (length args)) by lia.
      replace (par + 1 - 1) with par by lia.
      destruct (groups_split sfx (map rpn args)) as (pre & x & I & E1 & E2).
      { destruct args; simpl in *; [lia|discriminate]. }
      rewrite E1, E2. rewrite !rev_app_distr, <- !app_assoc. apply (gen_sfxs sfx) with (pre := []).
      apply in_map_iff in I. destruct I as (e & <- & _). apply bal_rpn.
    + destruct args; simpl in *; [lia|discriminate].
    + rewrite Forall_forall in *. intros e I. apply H; auto.
  - simpl in R. destruct R as (Ra & Rb & La & Lb). cbn [written done pend].
    rewrite strength_prior in *. simpl level in C. rewrite strength_prior in C.
    rewrite <- app_assoc. rewrite IHe1 by (auto; eapply ctx_le; eauto). cbn [app gen].
    rewrite pop_prio_app by (auto using pend_fine, pend_above).
    rewrite pop_prio_stop by (apply C; lia).
    rewrite IHe2 by (auto; apply ctx_op; lia).
    rewrite (rpn_done e1), !rev_app_distr, <- !app_assoc. reflexivity.
Qed.

(** The whole compilation. *)
Theorem compile_written e last : reading e -> last = T_EOF \/ last = T_EOE ->
  forall more, compile_tokens (written e ++ last :: more) [] = (C_ok (rpn e ++ [A_EOE]), []).
Proof.
  intros R L more. unfold compile_tokens. rewrite gen_written by (auto; intros o _; reflexivity).
  rewrite !app_nil_r.
  assert (G : gen (last :: more) (rev (done e)) (pend e) 0 false false =
    match pop_all (rev (done e)) (pend e) with
    | P_ok rex' ops' => (C_ok (rev (A_EOE :: rex')), ops') | P_err ops' => (C_err, ops') end).
  { destruct L; subst; reflexivity. }
  rewrite G, pop_all_app by (apply pend_fine; assumption).
  f_equal. f_equal. simpl. rewrite rev_app_distr, !rev_involutive, <- rpn_done. reflexivity.
Qed.
