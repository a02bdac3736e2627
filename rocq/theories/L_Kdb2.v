(** Invariants of the model of databases and the effect of each call. *)
From Coq Require Import ZArith Ascii String List Bool Lia Sorted.
From Verif Require Import M_Base M_Names M_Lex S_Names L_Names M_Kdb S_Kdb L_Kdb.
Import ListNotations.
Open Scope Z_scope.

Section W.
Context {T : Type}.
Variable ty : otype.
Notation world := (world T).
Implicit Types w : world.

Lemma upd_list_length {A} i (f : A -> A) l : length (upd_list i f l) = length l.
Proof. revert i. induction l; intros [|i]; cbn; auto. Qed.
Lemma upd_list_nth {A} i (f : A -> A) l j d : (i < length l)%nat ->
  nth j (upd_list i f l) d = if Nat.eqb j i then f (nth i l d) else nth j l d.
Proof. revert i j. induction l; intros [|i] [|j]; cbn; intros H; auto; try lia. apply IHl. lia. Qed.
Lemma upd_list_out {A} i (f : A -> A) l : (length l <= i)%nat -> upd_list i f l = l.
Proof. revert i. induction l; intros [|i]; cbn; intros H; auto; try lia. f_equal. apply IHl. lia. Qed.

Lemma get_upd w d f e : (d < length (dbs w))%nat ->
  get_db (upd_db w d f) e = if Nat.eqb e d then f (get_db w d) else get_db w e.
Proof. intros H. unfold get_db, upd_db. cbn. now apply upd_list_nth. Qed.
Lemma get_out w e : (length (dbs w) <= e)%nat -> get_db w e = dead.
Proof. intros H. unfold get_db. now apply nth_overflow. Qed.
Lemma live_lt w d : alive (get_db w d) = true -> (d < length (dbs w))%nat.
Proof. intros H. destruct (Nat.lt_ge_cases d (length (dbs w))); auto. rewrite get_out in H; auto. discriminate. Qed.
Lemma len_upd w d f : length (dbs (upd_db w d f)) = length (dbs w).
Proof. unfold upd_db. cbn. apply upd_list_length. Qed.

(** A loop over distinct databases updating those that satisfy [P]. *)
Definition in_list (e : nat) (l : list nat) : bool := existsb (Nat.eqb e) l.
Lemma in_list_iff e l : in_list e l = true <-> In e l.
Proof.
  unfold in_list. rewrite existsb_exists. split.
  - intros (x & Hx & E). apply Nat.eqb_eq in E. now subst.
  - intros H. exists e. split; auto. apply Nat.eqb_refl.
Qed.
Lemma in_list_false e l : in_list e l = false <-> ~ In e l.
Proof. rewrite <- in_list_iff. destruct (in_list e l); split; congruence. Qed.
Definition loop (P : db -> bool) (f : db -> db) (cs : list nat) w : world :=
  fold_left (fun w c => if P (get_db w c) then upd_db w c f else w) cs w.
Lemma loop_spec P f cs : forall w, NoDup cs -> (forall c, In c cs -> (c < length (dbs w))%nat) ->
  heap (loop P f cs w) = heap w /\ length (dbs (loop P f cs w)) = length (dbs w) /\
  forall e, get_db (loop P f cs w) e =
    if in_list e cs && P (get_db w e) then f (get_db w e) else get_db w e.
Proof.
  unfold loop. induction cs as [|c cs IH]; intros w ND B; cbn [fold_left].
  - split; [|split]; auto.
  - inversion ND; subst. set (w1 := if P (get_db w c) then upd_db w c f else w).
    assert (L1 : length (dbs w1) = length (dbs w)) by (unfold w1; destruct (P _); auto using len_upd).
    destruct (IH w1 H2) as (IH1 & IH2 & IH3).
    { intros x Hx. rewrite L1. apply B. now right. }
    split; [|split].
    + rewrite IH1. unfold w1. destruct (P _); auto.
    + congruence.
    + intros e. rewrite IH3. cbn [in_list existsb]. fold (in_list e cs).
      assert (G : get_db w1 e = if Nat.eqb e c && P (get_db w e) then f (get_db w e) else get_db w e).
      { unfold w1. destruct (P (get_db w c)) eqn:Pc.
        - rewrite get_upd by (apply B; now left). destruct (Nat.eqb e c) eqn:E; auto.
          apply Nat.eqb_eq in E. subst. now rewrite Pc.
        - destruct (Nat.eqb e c) eqn:E; auto. apply Nat.eqb_eq in E. subst. now rewrite Pc. }
      rewrite G. destruct (Nat.eqb e c) eqn:E; cbn [andb orb]; auto.
      apply Nat.eqb_eq in E. subst e.
      assert (in_list c cs = false) as -> by now apply in_list_false.
      cbn [andb]. destruct (P (get_db w c)); auto.
Qed.

Record wf (U : str -> Prop) w : Prop := {
  wf_sorted : forall d, sorted (objs (get_db w d));
  wf_valid : forall d k p, In (k, p) (objs (get_db w d)) ->
     check_name k ty = Ok tt /\ key_of ty k = k /\ U k;
  wf_ptr : forall d k p, In (k, p) (objs (get_db w d)) -> (p < length (heap w))%nat;
  wf_sep : forall d e p, owns w d p -> owns w e p -> family w d = family w e;
  wf_kids : forall t c, In c (kids (get_db w t)) ->
     kind (get_db w c) = DB_SUBSET /\ up (get_db w c) = t /\
     alive (get_db w c) = true /\ alive (get_db w t) = true;
  wf_nodup : forall t, NoDup (kids (get_db w t));
  wf_up : forall d, kind (get_db w d) = DB_SUBSET ->
     kind (get_db w (up (get_db w d))) <> DB_SUBSET /\ (up (get_db w d) < length (dbs w))%nat }.

Definition shape w w' := length (dbs w') = length (dbs w) /\
  forall e, kind (get_db w' e) = kind (get_db w e) /\ alive (get_db w' e) = alive (get_db w e) /\
            up (get_db w' e) = up (get_db w e) /\ kids (get_db w' e) = kids (get_db w e).
Lemma shape_family w w' e : shape w w' -> family w' e = family w e.
Proof. intros [_ H]. unfold family. destruct (H e) as (-> & _ & -> & _). reflexivity. Qed.
Lemma shape_refl w : shape w w.
Proof. split; auto. Qed.

(** [w'] is [w] with other names in the databases: [g e k] is what [e] now holds under [k]. *)
Record edit w w' (g : nat -> str -> option nat) : Prop := {
  ed_heap : heap w' = heap w;
  ed_shape : shape w w';
  ed_sorted : forall e, sorted (objs (get_db w' e));
  ed_find : forall e k, find k (objs (get_db w' e)) = g e k }.

Lemma wf_edit U w w' g F p0 : wf U w -> edit w w' g ->
  (forall e k q, g e k = Some q -> check_name k ty = Ok tt /\ key_of ty k = k /\ U k) ->
  (forall e k q, g e k = Some q ->
     (exists e0, family w e0 = family w e /\ owns w e0 q) \/
     (family w e = F /\ q = p0 /\ (p0 < length (heap w))%nat /\ forall e1, ~ owns w e1 p0)) ->
  wf U w'.
Proof.
  intros W E V O. destruct E as [Eh Es Eso Ef]. destruct Es as [El Es].
  assert (G : forall d k p, In (k, p) (objs (get_db w' d)) -> g d k = Some p).
  { intros d k p H. rewrite <- Ef. apply In_find; auto. }
  constructor; auto.
  - intros d k p H. eapply V. eauto.
  - intros d k p H. rewrite Eh. apply G in H. apply O in H. destruct H as [(e0 & _ & k' & H)|(_ & -> & H & _)]; auto.
    eapply wf_ptr; eauto.
  - intros d e p [k1 H1] [k2 H2]. apply G in H1. apply G in H2. apply O in H1. apply O in H2.
    rewrite !(shape_family w w') by (split; auto).
    destruct H1 as [(a & Fa & Ha)|(Fa & Ea & _ & Na)], H2 as [(b & Fb & Hb)|(Fb & Eb & _ & Nb)]; subst.
    + rewrite <- Fa, <- Fb. eapply wf_sep; eauto.
    + destruct (Nb _ Ha).
    + destruct (Na _ Hb).
    + congruence.
  - intros t c H. destruct (Es t) as (_ & Ht & _ & Hk). rewrite Hk in H. destruct (Es c) as (-> & -> & -> & _).
    rewrite Ht. eapply wf_kids; eauto.
  - intros t. destruct (Es t) as (_ & _ & _ & ->). eapply wf_nodup; eauto.
  - intros d. destruct (Es d) as (-> & _ & -> & _). intros H. rewrite El.
    destruct (Es (up (get_db w d))) as (-> & _). eapply wf_up; eauto.
Qed.

Lemma top_facts U w d t : wf U w -> alive (get_db w d) = true -> top_of w d = Some t ->
  alive (get_db w t) = true /\ kind (get_db w t) <> DB_SUBSET /\ family w d = t /\
  (kind (get_db w d) = DB_SUBSET -> up (get_db w d) = t) /\
  (kind (get_db w d) <> DB_SUBSET -> d = t) /\ children w d = kids (get_db w t).
Proof.
  intros W L H. unfold top_of, children, family in *. destruct (kind (get_db w d)) eqn:K; cbn [is_subset] in *.
  - inversion H; subst. rewrite K. repeat split; auto; discriminate.
  - inversion H; subst. rewrite K. repeat split; auto; discriminate.
  - destruct (alive (get_db w (up (get_db w d)))) eqn:A; [|discriminate]. inversion H; subst.
    destruct (wf_up _ _ W d K). repeat split; auto. intros N. congruence.
Qed.
Lemma kid_family U w t c : wf U w -> In c (kids (get_db w t)) -> family w c = t.
Proof. intros W H. destruct (wf_kids _ _ W _ _ H) as (K & <- & _). unfold family. now rewrite K. Qed.
Lemma kid_neq U w t c : wf U w -> kind (get_db w t) <> DB_SUBSET -> In c (kids (get_db w t)) -> c <> t.
Proof. intros W K H ->. destruct (wf_kids _ _ W _ _ H) as (K2 & _). congruence. Qed.
Lemma kids_lt U w t c : wf U w -> In c (kids (get_db w t)) -> (c < length (dbs w))%nat.
Proof. intros W H. apply live_lt. now destruct (wf_kids _ _ W _ _ H) as (_ & _ & A & _). Qed.
Lemma set_objs_shape f b : kind (set_objs f b) = kind b /\ alive (set_objs f b) = alive b /\
  up (set_objs f b) = up b /\ kids (set_objs f b) = kids b.
Proof. repeat split. Qed.

Lemma contains_put b key p : contains ty (set_objs (put key p) b) key = true \/ key_of ty key <> key.
Proof.
  unfold contains. destruct (is_comments ty) eqn:C.
  - destruct (str_dec (key_of ty key) key) as [E|]; auto. left. apply existsb_exists. exists key.
    unfold key_of, is_comments in *. destruct ty; try discriminate. cbn [mode_of to_key] in E.
    rewrite E. split; [|now apply str_eqb_refl].
    cbn. assert (H := find_put_eq key p (objs b)). apply find_In in H.
    change key with (fst (key, p)). now apply in_map.
  - destruct (str_dec (key_of ty key) key) as [E|]; auto. left. rewrite E. cbn [set_objs objs].
    now rewrite find_put_eq.
Qed.

(** kdb.h: set_obj_ptr_no_check. *)
Definition touched w d t key e : bool :=
  Nat.eqb e d || Nat.eqb e t || (in_list e (kids (get_db w t)) && contains ty (get_db w e) key).
Lemma set_no_check_eff U w d key p t : wf U w -> alive (get_db w d) = true -> top_of w d = Some t ->
  exists w', set_no_check ty w d key p = (w', Ret true) /\
    edit w w' (fun e k => if touched w d t key e && str_eqb k key then Some p else find k (objs (get_db w e))).
Proof.
  intros W L Ht. pose proof (top_facts _ _ _ _ W L Ht) as (At & Kt & Fd & Ud & Td & Cd).
  unfold set_no_check. rewrite Ht.
  set (f := set_objs (put key p)).
  set (w1 := upd_db w d f).
  set (w2 := if is_subset (kind (get_db w d)) then upd_db w1 t f else w1).
  pose proof (live_lt _ _ L) as Ld. pose proof (live_lt _ _ At) as Lt.
  assert (L1 : length (dbs w1) = length (dbs w)) by apply len_upd.
  assert (L2 : length (dbs w2) = length (dbs w)) by (unfold w2; destruct (is_subset _); rewrite ?len_upd; auto).
  assert (G2 : forall e, get_db w2 e = if Nat.eqb e d || Nat.eqb e t then f (get_db w e) else get_db w e).
  { intros e. unfold w2. destruct (kind (get_db w d)) eqn:K; cbn [is_subset].
    1, 2: rewrite <- (Td ltac:(discriminate)); unfold w1; rewrite get_upd by auto;
          destruct (Nat.eqb e d) eqn:E; auto; apply Nat.eqb_eq in E; now subst.
    rewrite get_upd by lia. unfold w1. rewrite !get_upd by auto.
    assert (N : t <> d) by (intros ->; congruence).
    destruct (Nat.eqb e t) eqn:E1.
    - apply Nat.eqb_eq in E1. subst e. assert (Nat.eqb t d = false) as -> by now apply Nat.eqb_neq. auto.
    - destruct (Nat.eqb e d) eqn:E2; auto. apply Nat.eqb_eq in E2. now subst. }
  assert (S2 : shape w w2).
  { split; auto. intros e. rewrite G2. destruct (_ || _); auto. }
  assert (C2 : children w2 d = kids (get_db w t)).
  { unfold children. destruct S2 as [_ S2]. destruct (S2 d) as (-> & _ & -> & ->).
    destruct (kind (get_db w d)) eqn:K; cbn [is_subset]; try (now rewrite (Td ltac:(discriminate))).
    rewrite (Ud eq_refl). destruct (S2 t) as (_ & -> & _ & ->). now rewrite At. }
  rewrite C2. change (put_in_children ty key p (kids (get_db w t)) w2)
    with (loop (fun b => contains ty b key) f (kids (get_db w t)) w2).
  destruct (loop_spec (fun b => contains ty b key) f (kids (get_db w t)) w2) as (H1 & H2 & H3).
  { eapply wf_nodup; eauto. }
  { intros c Hc. rewrite L2. eapply kids_lt; eauto. }
  set (w3 := loop _ _ _ w2) in *. exists w3. split; auto.
  assert (G3 : forall e, objs (get_db w3 e) = objs (get_db w e) /\ touched w d t key e = false \/
     (objs (get_db w3 e) = put key p (objs (get_db w e)) \/
      objs (get_db w3 e) = put key p (put key p (objs (get_db w e)))) /\ touched w d t key e = true).
  { intros e. rewrite H3, G2. unfold touched. destruct (Nat.eqb e d || Nat.eqb e t) eqn:E; cbn [orb].
    - right. destruct (in_list e _ && contains ty (f (get_db w e)) key); split; auto.
    - destruct (in_list e _ && contains ty (get_db w e) key); auto. }
  constructor.
  - rewrite H1. unfold w2, w1. destruct (is_subset _); auto.
  - split; [congruence|]. intros e. rewrite H3. destruct S2 as [_ S2].
    destruct (in_list e _ && _); [unfold f; rewrite !(proj1 (set_objs_shape _ _)),
      !(proj1 (proj2 (set_objs_shape _ _)))|]; apply S2.
  - intros e. destruct (G3 e) as [[-> _]|[[->| ->] _]]; repeat apply sorted_put; eapply wf_sorted; eauto.
  - intros e k. destruct (G3 e) as [[-> ->]|[[->| ->] ->]]; cbn [andb]; auto; rewrite !find_put;
      destruct (str_eqb k key); auto.
Qed.

(** kdb.h: remove. *)
Definition in_family w t e : bool := Nat.eqb e t || in_list e (kids (get_db w t)).
Lemma remove_eff U w d name t : wf U w -> alive (get_db w d) = true -> top_of w d = Some t ->
  contains ty (get_db w d) (key_of ty name) = true -> contains ty (get_db w t) (key_of ty name) = true ->
  exists w', remove ty w d name = (w', Ret true) /\
    edit w w' (fun e k => if in_family w t e && str_eqb k (key_of ty name) then None else find k (objs (get_db w e))).
Proof.
  intros W L Ht Cd Ct. pose proof (top_facts _ _ _ _ W L Ht) as (At & Kt & Fd & Ud & Td & Chd).
  unfold remove. rewrite Ht, Cd, Ct. cbn [andb]. set (key := key_of ty name).
  set (f := set_objs (del key)). set (w1 := upd_db w t f).
  pose proof (live_lt _ _ L) as Ld. pose proof (live_lt _ _ At) as Lt.
  assert (G1 : forall e, get_db w1 e = if Nat.eqb e t then f (get_db w t) else get_db w e) by (intros; now apply get_upd).
  assert (S1 : shape w w1).
  { split; [apply len_upd|]. intros e. rewrite G1. destruct (Nat.eqb e t) eqn:E; auto. apply Nat.eqb_eq in E. now subst. }
  assert (C1 : children w1 d = kids (get_db w t)).
  { rewrite <- Chd. unfold children. destruct S1 as [_ S1]. destruct (S1 d) as (-> & _ & -> & ->).
    destruct (S1 (up (get_db w d))) as (_ & -> & _ & ->). auto. }
  rewrite C1.
  change (fold_left (fun w c => upd_db w c f) (kids (get_db w t)) w1) with (loop (fun _ => true) f (kids (get_db w t)) w1).
  destruct (loop_spec (fun _ => true) f (kids (get_db w t)) w1) as (H1 & H2 & H3).
  { eapply wf_nodup; eauto. }
  { intros c Hc. destruct S1 as [-> _]. eapply kids_lt; eauto. }
  set (w3 := loop _ _ _ w1) in *. exists w3. split; auto.
  assert (G3 : forall e, get_db w3 e = if in_family w t e then f (get_db w e) else get_db w e).
  { intros e. rewrite H3, G1, andb_true_r. unfold in_family. destruct (Nat.eqb e t) eqn:E; cbn [orb]; auto.
    apply Nat.eqb_eq in E. subst e. assert (in_list t (kids (get_db w t)) = false) as ->; auto.
    apply in_list_false. intros HI. eapply kid_neq; eauto. }
  constructor.
  - rewrite H1. reflexivity.
  - split; [rewrite H2; apply S1|]. intros e. rewrite G3. destruct (in_family w t e); auto.
  - intros e. rewrite G3. destruct (in_family w t e); [apply sorted_del|]; eapply wf_sorted; eauto.
  - intros e k. rewrite G3. destruct (in_family w t e); cbn [andb]; auto. cbn [f set_objs objs].
    rewrite find_del by (eapply wf_sorted; eauto). destruct (str_eqb k key); auto.
Qed.

(** kdb.h: rename. *)
Lemma rename_eff U w d old new ow t p : wf U w -> alive (get_db w d) = true -> top_of w d = Some t ->
  ty <> EQUATIONS -> objs (get_db w d) <> [] -> check_name (key_of ty new) ty = Ok tt ->
  contains ty (get_db w d) (key_of ty old) = true ->
  (ow = true \/ contains ty (get_db w t) (key_of ty new) = false) ->
  get_obj_ptr ty (get_db w t) (key_of ty old) = Ok p ->
  exists w', rename ty w d old new ow = (w', Ret true) /\
    edit w w' (fun e k =>
      if Nat.eqb e t || (in_list e (kids (get_db w t)) && contains ty (get_db w e) (key_of ty old)) then
        if str_eqb k (key_of ty new) then Some p
        else if str_eqb k (key_of ty old) then None else find k (objs (get_db w e))
      else find k (objs (get_db w e))).
Proof.
  intros W L Ht NE NO Cn Cd Cow Gp. pose proof (top_facts _ _ _ _ W L Ht) as (At & Kt & Fd & Ud & Td & Chd).
  set (okey := key_of ty old) in *. set (nkey := key_of ty new) in *.
  set (f := set_objs (fun m => put nkey p (del okey m))). set (w1 := upd_db w t f).
  assert (R : rename ty w d old new ow =
    (fold_left (fun w c => if contains ty (get_db w c) okey then upd_db w c f else w) (children w1 d) w1, Ret true)).
  { unfold rename. fold okey. fold nkey. rewrite Cn, Cd, Ht, Gp. cbn [negb].
    assert (negb ow && contains ty (get_db w t) nkey = false) as ->
      by (destruct Cow as [->| ->]; cbn; auto using andb_false_r).
    destruct (objs (get_db w d)); [congruence|]. destruct ty; auto. congruence. }
  rewrite R. clear R.
  pose proof (live_lt _ _ L) as Ld. pose proof (live_lt _ _ At) as Lt.
  assert (G1 : forall e, get_db w1 e = if Nat.eqb e t then f (get_db w t) else get_db w e) by (intros; now apply get_upd).
  assert (S1 : shape w w1).
  { split; [apply len_upd|]. intros e. rewrite G1. destruct (Nat.eqb e t) eqn:E; auto. apply Nat.eqb_eq in E. now subst. }
  assert (C1 : children w1 d = kids (get_db w t)).
  { rewrite <- Chd. unfold children. destruct S1 as [_ S1]. destruct (S1 d) as (-> & _ & -> & ->).
    destruct (S1 (up (get_db w d))) as (_ & -> & _ & ->). auto. }
  rewrite C1.
  change (fold_left (fun w c => if contains ty (get_db w c) okey then upd_db w c f else w) (kids (get_db w t)) w1)
    with (loop (fun b => contains ty b okey) f (kids (get_db w t)) w1).
  destruct (loop_spec (fun b => contains ty b okey) f (kids (get_db w t)) w1) as (H1 & H2 & H3).
  { eapply wf_nodup; eauto. }
  { intros c Hc. destruct S1 as [-> _]. eapply kids_lt; eauto. }
  set (w3 := loop _ _ _ w1) in *. exists w3. split; auto.
  set (mv := fun e => Nat.eqb e t || (in_list e (kids (get_db w t)) && contains ty (get_db w e) okey)).
  assert (G3 : forall e, get_db w3 e = if mv e then f (get_db w e) else get_db w e).
  { intros e. rewrite H3, G1. unfold mv. destruct (Nat.eqb e t) eqn:E; cbn [orb]; auto.
    apply Nat.eqb_eq in E. subst e. assert (in_list t (kids (get_db w t)) = false) as ->; auto.
    apply in_list_false. intros HI. eapply kid_neq; eauto. }
  constructor.
  - rewrite H1. reflexivity.
  - split; [rewrite H2; apply S1|]. intros e. rewrite G3. destruct (mv e); auto.
  - intros e. rewrite G3. destruct (mv e); [apply sorted_put, sorted_del|]; eapply wf_sorted; eauto.
  - intros e k. rewrite G3. fold (mv e). destruct (mv e); auto. cbn [f set_objs objs].
    rewrite find_put, find_del by (eapply wf_sorted; eauto). auto.
Qed.
End W.
