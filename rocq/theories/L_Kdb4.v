(** Clearing, copying and merging databases; the invariant of all reachable worlds. *)
From Coq Require Import ZArith Ascii String List Bool Lia Sorted.
From Verif Require Import M_Base M_Names M_Lex S_Names L_Names M_Kdb S_Kdb L_Kdb L_Kdb2 L_Kdb3.
Import ListNotations.
Open Scope Z_scope.

Section W.
Context {T : Type}.
Variable ty : otype.
Variable U : str -> Prop.
Notation world := (world T).
Implicit Types w : world.
Notation wf := (wf ty U).

Lemma clear_one_spec w c : (c < length (dbs w))%nat ->
  heap (clear_one w c) = heap w /\ length (dbs (clear_one w c)) = length (dbs w) /\
  forall e, let b := get_db (clear_one w c) e in let a := get_db w e in
    kind b = kind a /\ alive b = alive a /\ up b = up a /\
    objs b = (if Nat.eqb e c then [] else objs a) /\
    kids b = (if Nat.eqb e (up (get_db w c)) && alive (get_db w (up (get_db w c)))
              then filter (fun x => negb (Nat.eqb x c)) (kids a) else kids a).
Proof.
  intros L. unfold clear_one. set (t := up (get_db w c)).
  destruct (alive (get_db w t)) eqn:A.
  - pose proof (live_lt _ _ A) as Lt.
    split; [reflexivity|]. split; [now rewrite !len_upd|]. intros e. cbn zeta.
    rewrite get_upd by (rewrite len_upd; auto). rewrite !get_upd by auto.
    destruct (Nat.eqb e c) eqn:E1.
    + apply Nat.eqb_eq in E1. subst e. destruct (Nat.eqb c t) eqn:E2; cbn; auto.
      apply Nat.eqb_eq in E2. rewrite <- E2. auto.
    + destruct (Nat.eqb e t) eqn:E2; cbn; auto.
      apply Nat.eqb_eq in E2. subst e. auto.
  - split; [reflexivity|]. split; [now rewrite !len_upd|]. intros e. cbn zeta.
    rewrite get_upd by auto. rewrite andb_false_r. destruct (Nat.eqb e c) eqn:E1; cbn; auto.
    apply Nat.eqb_eq in E1. subst e. auto.
Qed.

Lemma clear_fold t cs : forall w, NoDup cs ->
  (forall c, In c cs -> up (get_db w c) = t /\ c <> t /\ (c < length (dbs w))%nat) ->
  let r := fold_left (fun w c => upd_db (clear_one w c) c (set_kind DB_STANDALONE)) cs w in
  heap r = heap w /\ length (dbs r) = length (dbs w) /\
  forall e, let b := get_db r e in let a := get_db w e in
    kind b = (if in_list e cs then DB_STANDALONE else kind a) /\ alive b = alive a /\ up b = up a /\
    objs b = (if in_list e cs then [] else objs a) /\ (e <> t -> kids b = kids a).
Proof.
  induction cs as [|c cs IH]; intros w ND H; cbn [fold_left].
  - split; [|split]; auto.
  - inversion ND; subst. destruct (H c ltac:(now left)) as (Hu & Hn & Hl).
    destruct (clear_one_spec w c Hl) as (C1 & C2 & C3).
    set (w1 := upd_db (clear_one w c) c (set_kind DB_STANDALONE)).
    assert (G : forall e, get_db w1 e = if Nat.eqb e c then set_kind DB_STANDALONE (get_db (clear_one w c) c)
                                        else get_db (clear_one w c) e) by (intros; apply get_upd; lia).
    assert (L1 : length (dbs w1) = length (dbs w)) by (unfold w1; rewrite len_upd; auto).
    destruct (IH w1 H3) as (I1 & I2 & I3).
    { intros x Hx. rewrite L1. destruct (H x ltac:(now right)) as (A & B & C). split; [|split]; auto.
      rewrite G. destruct (Nat.eqb x c) eqn:E.
      - apply Nat.eqb_eq in E. subst. contradiction.
      - destruct (C3 x) as (_ & _ & -> & _). auto. }
    split; [|split].
    + rewrite I1. exact C1.
    + congruence.
    + intros e. specialize (I3 e). cbn zeta in *. rewrite !G in I3. cbn [in_list existsb]. fold (in_list e cs).
      destruct (C3 e) as (K1 & K2 & K3 & K4 & K5). rewrite Hu in K5.
      destruct (Nat.eqb e c) eqn:E.
      * apply Nat.eqb_eq in E. subst e. cbn [set_kind kind alive up objs kids] in I3.
        assert (in_list c cs = false) as F by now apply in_list_false. rewrite F in I3.
        destruct I3 as (I3 & I4 & I5 & I6 & I7). cbn [orb].
        split; [auto|]. split; [congruence|]. split; [congruence|]. split; [congruence|].
        intros N. rewrite I7 by auto. rewrite K5. assert (Nat.eqb c t = false) as -> by now apply Nat.eqb_neq. auto.
      * cbn [orb]. destruct I3 as (I3 & I4 & I5 & I6 & I7).
        split; [destruct (in_list e cs); congruence|]. split; [congruence|]. split; [congruence|].
        split; [destruct (in_list e cs); congruence|].
        intros N. rewrite I7 by auto. rewrite K5. assert (Nat.eqb e t = false) as -> by now apply Nat.eqb_neq. auto.
Qed.

(** What [clear] does. *)
Lemma clear_spec w d : wf w -> alive (get_db w d) = true ->
  heap (clear w d) = heap w /\ length (dbs (clear w d)) = length (dbs w) /\
  ((kind (get_db w d) = DB_SUBSET /\
    forall e, let b := get_db (clear w d) e in let a := get_db w e in
      kind b = kind a /\ alive b = alive a /\ up b = up a /\ objs b = (if Nat.eqb e d then [] else objs a) /\
      kids b = filter (fun x => negb (Nat.eqb x d)) (kids a)) \/
   (kind (get_db w d) <> DB_SUBSET /\
    forall e, let b := get_db (clear w d) e in let a := get_db w e in
      kind b = (if in_list e (kids (get_db w d)) then DB_STANDALONE else kind a) /\ alive b = alive a /\ up b = up a /\
      objs b = (if in_family w d e then [] else objs a) /\
      kids b = if Nat.eqb e d then [] else kids a)).
Proof.
  intros W L. pose proof (live_lt _ _ L) as Ld.
  destruct (is_subset (kind (get_db w d))) eqn:K.
  - assert (K' : kind (get_db w d) = DB_SUBSET) by (destruct (kind (get_db w d)); auto; discriminate).
    unfold clear. rewrite K. destruct (clear_one_spec w d Ld) as (C1 & C2 & C3).
    split; [auto|]. split; [auto|]. left. split; auto. intros e. cbn zeta in *.
    destruct (C3 e) as (-> & -> & -> & -> & ->). split; [auto|]. split; [auto|]. split; [auto|]. split; [auto|].
    destruct (Nat.eqb e (up (get_db w d)) && _) eqn:E; auto.
    (* d is in the kids of no other database *)
    assert (N : ~ In d (kids (get_db w e))).
    { intros HI. destruct (wf_kids _ _ _ W _ _ HI) as (_ & Hu & _ & Ha). subst e.
      rewrite Nat.eqb_refl, Ha in E. discriminate. }
    clear - N. induction (kids (get_db w e)) as [|x l IH]; cbn; auto.
    destruct (Nat.eqb x d) eqn:E.
    + apply Nat.eqb_eq in E. subst. destruct N. now left.
    + cbn. f_equal. apply IH. intros H. apply N. now right.
  - assert (K' : kind (get_db w d) <> DB_SUBSET) by (intros H; rewrite H in K; discriminate).
    unfold clear. rewrite K.
    destruct (clear_fold d (kids (get_db w d)) w) as (F1 & F2 & F3).
    { eapply wf_nodup; eauto. }
    { intros c Hc. destruct (wf_kids _ _ _ W _ _ Hc) as (_ & Hu & _). split; [auto|]. split.
      eapply kid_neq; eauto. eapply kids_lt; eauto. }
    set (r := fold_left _ _ w) in *.
    split; [exact F1|]. split; [now rewrite !len_upd|]. right. split; auto. intros e. cbn zeta.
    rewrite get_upd by (rewrite len_upd; lia). rewrite !get_upd by lia. destruct (F3 e) as (H1 & H2 & H3 & H4 & H5).
    unfold in_family. destruct (Nat.eqb e d) eqn:E; cbn [orb].
    + apply Nat.eqb_eq in E. subst e. rewrite Nat.eqb_refl.
      assert (in_list d (kids (get_db w d)) = false) as F.
      { apply in_list_false. intros HI. eapply kid_neq; eauto. }
      rewrite F in *. cbn. auto.
    + split; [auto|]. split; [auto|]. split; [auto|]. split; [auto|]. apply H5. now apply Nat.eqb_neq.
Qed.

Lemma clear_ok w d : wf w -> alive (get_db w d) = true ->
  wf (clear w d) /\
  forall e, family w e <> family w d ->
    objs (get_db (clear w d) e) = objs (get_db w e) /\ family (clear w d) e = family w e.
Proof.
  intros W L. destruct (clear_spec w d W L) as (Hh & Hl & [[K H]|[K H]]).
  - split.
    + constructor.
      * intros e. destruct (H e) as (_ & _ & _ & -> & _). destruct (Nat.eqb e d). apply sorted_nil. eapply wf_sorted; eauto.
      * intros e k p. destruct (H e) as (_ & _ & _ & -> & _). destruct (Nat.eqb e d). intros []. eapply wf_valid; eauto.
      * intros e k p. rewrite Hh. destruct (H e) as (_ & _ & _ & -> & _). destruct (Nat.eqb e d). intros []. eapply wf_ptr; eauto.
      * intros a b p [k1 H1] [k2 H2]. unfold family. destruct (H a) as (-> & _ & -> & Ea & _), (H b) as (-> & _ & -> & Eb & _).
        rewrite Ea in H1. rewrite Eb in H2. destruct (Nat.eqb a d); [destruct H1|]. destruct (Nat.eqb b d); [destruct H2|].
        apply (wf_sep _ _ _ W a b p); eexists; eauto.
      * intros t c. destruct (H t) as (_ & -> & _ & _ & ->), (H c) as (-> & -> & -> & _ & _).
        intros HI. apply filter_In in HI. destruct HI as [HI _]. eapply wf_kids; eauto.
      * intros t. destruct (H t) as (_ & _ & _ & _ & ->). apply NoDup_filter. eapply wf_nodup; eauto.
      * intros e. rewrite Hl. destruct (H e) as (-> & _ & -> & _ & _). destruct (H (up (get_db w e))) as (-> & _).
        eapply wf_up; eauto.
    + intros e N. unfold family in *. destruct (H e) as (-> & _ & -> & -> & _).
      split; auto. destruct (Nat.eqb e d) eqn:E; auto. apply Nat.eqb_eq in E. subst. congruence.
  - split.
    + constructor.
      * intros e. destruct (H e) as (_ & _ & _ & -> & _). destruct (in_family w d e). apply sorted_nil. eapply wf_sorted; eauto.
      * intros e k p. destruct (H e) as (_ & _ & _ & -> & _). destruct (in_family w d e). intros []. eapply wf_valid; eauto.
      * intros e k p. rewrite Hh. destruct (H e) as (_ & _ & _ & -> & _). destruct (in_family w d e). intros []. eapply wf_ptr; eauto.
      * intros a b p [k1 H1] [k2 H2]. unfold family. destruct (H a) as (-> & _ & -> & Ea & _), (H b) as (-> & _ & -> & Eb & _).
        rewrite Ea in H1. rewrite Eb in H2. unfold in_family in *.
        destruct (Nat.eqb a d); [destruct H1|]. destruct (Nat.eqb b d); [destruct H2|]. cbn [orb] in *.
        destruct (in_list a _); [destruct H1|]. destruct (in_list b _); [destruct H2|].
        apply (wf_sep _ _ _ W a b p); eexists; eauto.
      * intros t c. destruct (H t) as (_ & -> & _ & _ & ->), (H c) as (-> & -> & -> & _ & _).
        destruct (Nat.eqb t d) eqn:E; [intros []|]. intros HI.
        destruct (wf_kids _ _ _ W _ _ HI) as (A & B & C & D).
        assert (in_list c (kids (get_db w d)) = false) as ->.
        { apply in_list_false. intros HJ. destruct (wf_kids _ _ _ W _ _ HJ) as (_ & B' & _). apply Nat.eqb_neq in E. congruence. }
        auto.
      * intros t. destruct (H t) as (_ & _ & _ & _ & ->). destruct (Nat.eqb t d). constructor. eapply wf_nodup; eauto.
      * intros e. rewrite Hl. destruct (H e) as (-> & _ & -> & _ & _). destruct (H (up (get_db w e))) as (-> & _).
        intros HK. destruct (in_list e _); [discriminate|]. destruct (wf_up _ _ _ W e HK) as [A B]. split; auto.
        destruct (in_list _ _); auto. discriminate.
    + assert (Fd : family w d = d) by (unfold family; destruct (kind (get_db w d)); auto; congruence).
      intros e N. rewrite Fd in N.
      assert (F : in_family w d e = false).
      { unfold in_family. apply orb_false_iff. split.
        - apply Nat.eqb_neq. intros ->. congruence.
        - apply in_list_false. intros HI. apply N. eapply kid_family; eauto. }
      unfold family. destruct (H e) as (-> & _ & -> & -> & _). rewrite F. unfold in_family in F.
      apply orb_false_iff in F. destruct F as [_ F]. now rewrite F.
Qed.

(** Creating a database. *)
Lemma get_create w k t e : get_db (fst (create w k t)) e =
  if Nat.eqb e (length (dbs w)) then mkDb k true t [] [] else get_db w e.
Proof.
  unfold get_db, create. cbn [fst dbs]. destruct (Nat.eqb e (length (dbs w))) eqn:E.
  - apply Nat.eqb_eq in E. subst. now rewrite app_nth2, Nat.sub_diag by lia.
  - apply Nat.eqb_neq in E. destruct (Nat.lt_ge_cases e (length (dbs w))).
    + now rewrite app_nth1.
    + rewrite !nth_overflow; auto. rewrite app_length. cbn. lia.
Qed.
Lemma create_ok w k t : wf w ->
  (k = DB_SUBSET -> kind (get_db w t) <> DB_SUBSET /\ (t < length (dbs w))%nat) ->
  wf (fst (create w k t)) /\
  forall e, e <> length (dbs w) -> get_db (fst (create w k t)) e = get_db w e /\ family (fst (create w k t)) e = family w e.
Proof.
  intros W Hk. assert (B : forall e, e <> length (dbs w) -> get_db (fst (create w k t)) e = get_db w e).
  { intros e N. rewrite get_create. apply Nat.eqb_neq in N. now rewrite N. }
  assert (Kl : forall x c, In c (kids (get_db w x)) -> c <> length (dbs w)).
  { intros x c H E. apply (kids_lt _ _ _ _ _ W) in H. lia. }
  split.
  - constructor.
    + intros d. rewrite get_create. destruct (Nat.eqb _ _). apply sorted_nil. eapply wf_sorted; eauto.
    + intros d x p. rewrite get_create. destruct (Nat.eqb _ _). intros []. eapply wf_valid; eauto.
    + intros d x p. rewrite get_create. destruct (Nat.eqb _ _). intros []. exact (wf_ptr _ _ _ W d x p).
    + intros d e p [k1 H1] [k2 H2]. rewrite get_create in H1. destruct (Nat.eqb d _) eqn:E1; [destruct H1|].
      rewrite get_create in H2. destruct (Nat.eqb e _) eqn:E2; [destruct H2|].
      unfold family. rewrite !get_create, E1, E2. apply (wf_sep _ _ _ W d e p); eexists; eauto.
    + intros x c. rewrite !(get_create w k t x). destruct (Nat.eqb x _) eqn:E1; [intros []|]. intros HI.
      rewrite B by eauto. eapply wf_kids; eauto.
    + intros x. rewrite get_create. destruct (Nat.eqb _ _). constructor. eapply wf_nodup; eauto.
    + intros d. rewrite (get_create w k t d).
      assert (length (dbs (fst (create w k t))) = S (length (dbs w))) as -> by (cbn; rewrite app_length; cbn; lia).
      destruct (Nat.eqb d _) eqn:E; cbn [kind up].
      * intros ->. destruct (Hk eq_refl) as [A C]. rewrite get_create.
        assert (Nat.eqb t (length (dbs w)) = false) as -> by (apply Nat.eqb_neq; lia). split; [auto|lia].
      * intros HK. destruct (wf_up _ _ _ W d HK) as [A C]. rewrite get_create.
        assert (Nat.eqb (up (get_db w d)) (length (dbs w)) = false) as -> by (apply Nat.eqb_neq; lia). split; [auto|lia].
  - intros e N. split; auto. unfold family. now rewrite B.
Qed.

Lemma set_heap_ok w (h : list T) : wf w -> length h = length (heap w) -> wf (mkW h (dbs w)).
Proof. intros [] E. constructor; auto. cbn. rewrite E. auto. Qed.

(** Changing only the list of subsets of [t]. *)
Lemma wf_add_kid w s t : wf w -> kind (get_db w s) = DB_SUBSET -> up (get_db w s) = t ->
  alive (get_db w s) = true -> alive (get_db w t) = true -> ~ In s (kids (get_db w t)) ->
  wf (upd_db w t (set_kids (fun l => l ++ [s]))).
Proof.
  intros W K Hu As At N. pose proof (live_lt _ _ At) as Lt. set (w' := upd_db _ _ _).
  assert (G : forall e, kind (get_db w' e) = kind (get_db w e) /\ alive (get_db w' e) = alive (get_db w e) /\
    up (get_db w' e) = up (get_db w e) /\ objs (get_db w' e) = objs (get_db w e) /\
    kids (get_db w' e) = if Nat.eqb e t then kids (get_db w t) ++ [s] else kids (get_db w e)).
  { intros e. unfold w'. rewrite get_upd by auto. destruct (Nat.eqb e t) eqn:E; auto.
    apply Nat.eqb_eq in E. subst e. cbn. auto. }
  assert (Ll : length (dbs w') = length (dbs w)) by apply len_upd.
  constructor.
  - intros e. destruct (G e) as (_ & _ & _ & -> & _). eapply wf_sorted; eauto.
  - intros e k p. destruct (G e) as (_ & _ & _ & -> & _). eapply wf_valid; eauto.
  - intros e k p. destruct (G e) as (_ & _ & _ & -> & _). exact (wf_ptr _ _ _ W e k p).
  - intros a b p [k1 H1] [k2 H2]. unfold family. destruct (G a) as (-> & _ & -> & Ea & _), (G b) as (-> & _ & -> & Eb & _).
    rewrite Ea in H1. rewrite Eb in H2. apply (wf_sep _ _ _ W a b p); eexists; eauto.
  - intros x c. destruct (G x) as (_ & -> & _ & _ & ->), (G c) as (-> & -> & -> & _ & _).
    destruct (Nat.eqb x t) eqn:E; [|eapply wf_kids; eauto]. apply Nat.eqb_eq in E. subst x.
    intros HI. apply in_app_iff in HI. destruct HI as [HI|[<-|[]]]; [eapply wf_kids; eauto|auto].
  - intros x. destruct (G x) as (_ & _ & _ & _ & ->). destruct (Nat.eqb x t); [|eapply wf_nodup; eauto].
    pose proof (wf_nodup _ _ _ W t) as ND. revert ND N. clear. induction (kids (get_db w t)) as [|a l IH]; cbn; intros ND N.
    + constructor; [intros []|constructor].
    + inversion ND; subst. constructor.
      * intros HI. apply in_app_iff in HI. destruct HI as [HI|[->|[]]]; auto.
      * apply IH; auto.
  - intros d. rewrite Ll. destruct (G d) as (-> & _ & -> & _). destruct (G (up (get_db w d))) as (-> & _). eapply wf_up; eauto.
Qed.

Lemma children_none w w' t s : wf w -> shape w w' -> s = length (dbs w) -> ~ In s (kids (get_db w' t)).
Proof.
  intros W [_ S] -> H. destruct (S t) as (_ & _ & _ & E). rewrite E in H. apply (kids_lt _ _ _ _ _ W) in H. lia.
Qed.
End W.
