(** What a name gives access to after each call. *)
From Coq Require Import ZArith Ascii String List Bool Lia Sorted.
From Verif Require Import M_Base M_Names M_Lex S_Names L_Names M_Kdb S_Kdb L_Kdb L_Kdb2 L_Kdb3 L_Kdb4 L_Kdb5.
Import ListNotations.
Open Scope Z_scope.

Section W.
Context {T : Type}.
Variable ty : otype.
Variable U : str -> Prop.
Notation world := (world T).
Notation op := (op T).
Implicit Types w : world.
Notation wf := (wf ty U).
Definition is_nil {A} (l : list A) : bool := match l with [] => true | _ => false end.
(** No two names in [U] differ only by case, for comments. *)
Definition exact := ty = COMMENTS -> forall a b, U a -> U b -> to_lower a = to_lower b -> a = b.
Hypothesis EX : exact.

Lemma find_empty w d : wf w -> find [] (objs (get_db w d)) = None.
Proof.
  intros W. destruct (find [] (objs (get_db w d))) eqn:E; auto. apply find_In in E.
  apply (wf_valid _ _ _ W) in E. destruct E as [E _]. discriminate.
Qed.
Lemma contains_exact w d name : wf w -> U (key_of ty name) ->
  contains ty (get_db w d) name = is_some (find (key_of ty name) (objs (get_db w d))).
Proof.
  intros W Hu. unfold contains. destruct (is_comments ty) eqn:C; [|now destruct (find _ _)].
  assert (Ty : ty = COMMENTS) by (unfold is_comments in C; destruct ty; auto; discriminate).
  assert (Kn : key_of ty name = trim name) by (unfold key_of; rewrite Ty; reflexivity).
  rewrite Kn in *.
  assert (V : forall k, In k (keys (objs (get_db w d))) -> U k) by (intros k Hk; eapply key_facts; eauto).
  destruct (find (trim name) (objs (get_db w d))) as [p|] eqn:F; cbn [is_some].
  - apply existsb_exists. exists (trim name). split; [|apply str_eqb_refl].
    apply find_In in F. change (trim name) with (fst (trim name, p)). now apply in_map.
  - destruct (existsb _ _) eqn:E; auto. apply existsb_exists in E. destruct E as (k & Hk & E).
    apply str_eqb_iff in E. apply (EX Ty) in E; auto. subst k. apply find_None in F. contradiction.
Qed.
Lemma fold_last_match (l : list str) q : forall acc,
  fold_left (fun acc k => if str_eqb (to_lower k) q then k else acc) l acc = acc \/
  (In (fold_left (fun acc k => if str_eqb (to_lower k) q then k else acc) l acc) l /\
   to_lower (fold_left (fun acc k => if str_eqb (to_lower k) q then k else acc) l acc) = q).
Proof.
  induction l as [|k l IH]; intros acc; cbn [fold_left]; auto.
  destruct (str_eqb (to_lower k) q) eqn:E.
  - right. destruct (IH k) as [->|[A B]]; [|split; auto; now right]. apply str_eqb_iff in E. split; auto. now left.
  - destruct (IH acc) as [A|[A B]]; auto. right. split; auto. now right.
Qed.
Lemma fold_some_match (l : list str) q : forall acc, (exists k, In k l /\ to_lower k = q) ->
  let r := fold_left (fun acc k => if str_eqb (to_lower k) q then k else acc) l acc in In r l /\ to_lower r = q.
Proof.
  induction l as [|k l IH]; intros acc H; cbn [fold_left].
  - destruct H as (k & [] & _).
  - destruct (str_eqb (to_lower k) q) eqn:E.
    + apply str_eqb_iff in E. destruct (fold_last_match l q k) as [->|[A B]]; cbn zeta; split; auto; try (now left). now right.
    + destruct H as (x & [<-|Hx] & Ex).
      * rewrite Ex, str_eqb_refl in E. discriminate.
      * destruct (IH acc (ex_intro _ x (conj Hx Ex))) as [A B]. split; auto. now right.
Qed.
Lemma get_obj_ptr_exact w d name : wf w -> U (key_of ty name) ->
  get_obj_ptr ty (get_db w d) name =
  match find (key_of ty name) (objs (get_db w d)) with Some p => Ok p | None => Throw end.
Proof.
  intros W Hu. unfold get_obj_ptr, get_key. destruct (is_comments ty) eqn:C.
  - assert (Ty : ty = COMMENTS) by (unfold is_comments in C; destruct ty; auto; discriminate).
    assert (Kn : key_of ty name = trim name) by (unfold key_of; rewrite Ty; reflexivity).
    rewrite Kn in *.
    assert (V : forall k, In k (keys (objs (get_db w d))) -> U k) by (intros k Hk; eapply key_facts; eauto).
    destruct (find (trim name) (objs (get_db w d))) as [p|] eqn:F.
    + destruct (fold_some_match (keys (objs (get_db w d))) (to_lower (trim name)) []) as [A B].
      { exists (trim name). split; auto. apply find_In in F. change (trim name) with (fst (trim name, p)). now apply in_map. }
      apply (EX Ty) in B; auto. rewrite B. destruct (trim name) eqn:Et; [rewrite find_empty in F; auto; discriminate|now rewrite F].
    + destruct (fold_last_match (keys (objs (get_db w d))) (to_lower (trim name)) []) as [->|[A B]]; auto.
      apply (EX Ty) in B; auto. rewrite B. destruct (trim name); auto. now rewrite F.
  - assert (Cn : contains ty (get_db w d) (key_of ty name) = is_some (find (key_of ty name) (objs (get_db w d)))).
    { rewrite contains_exact; auto; now rewrite key_idem. }
    rewrite Cn. destruct (find (key_of ty name) (objs (get_db w d))) as [p|] eqn:F; cbn [is_some]; auto.
    destruct (key_of ty name) eqn:Ek; auto. rewrite find_empty in F; auto. discriminate. now rewrite F.
Qed.

Lemma lookup_find w d k v : wf w -> lookup w d k = Some v <-> exists p, find k (objs (get_db w d)) = Some p /\ nth_error (heap w) p = Some v.
Proof.
  intros W. unfold lookup. destruct (find k (objs (get_db w d))) as [p|].
  - split; [intros H; exists p; auto|intros (q & E & H); congruence].
  - split; [discriminate|intros (q & E & _); discriminate].
Qed.
Lemma ptr_valid w d k p : wf w -> find k (objs (get_db w d)) = Some p -> exists v, nth_error (heap w) p = Some v.
Proof.
  intros W H. apply find_In in H. apply (wf_ptr _ _ _ W) in H. destruct (nth_error (heap w) p) eqn:E; eauto.
  apply nth_error_None in E. lia.
Qed.
Lemma is_some_lookup w d k : wf w -> is_some (lookup w d k) = is_some (find k (objs (get_db w d))).
Proof.
  intros W. unfold lookup. destruct (find k (objs (get_db w d))) eqn:E; auto.
  destruct (ptr_valid w d k n W E) as [v ->]. reflexivity.
Qed.
Lemma get_exact w d name : wf w -> U (key_of ty name) ->
  get ty w d name = match lookup w d (key_of ty name) with Some v => Ok v | None => Throw end.
Proof. intros W Hu. unfold get, lookup. rewrite get_obj_ptr_exact by auto. now destruct (find _ _). Qed.
Lemma lookup_grow w v d k : wf w -> lookup (grow w v) d k = lookup w d k.
Proof.
  intros W. unfold lookup. change (get_db (grow w v) d) with (get_db w d).
  destruct (find k (objs (get_db w d))) as [p|] eqn:F; auto. cbn [heap grow].
  apply nth_error_app1. apply find_In in F. eapply wf_ptr; eauto.
Qed.
Lemma lookup_setting w v w' d t key : wf w ->
  edit (grow w v) w' (setting ty w d t key (length (heap w))) ->
  forall e k, lookup w' e k = if touched ty w d t key e && str_eqb k key then Some v else lookup w e k.
Proof.
  intros W [Eh _ _ Ef] e k. unfold lookup. rewrite Ef, Eh. unfold setting. cbn [heap grow].
  destruct (_ && _).
  - rewrite nth_error_app2, Nat.sub_diag by lia. reflexivity.
  - destruct (find k (objs (get_db w e))) as [p|] eqn:F; auto.
    apply nth_error_app1. apply find_In in F. eapply wf_ptr; eauto.
Qed.

Lemma set_no_check_lookup w d key v t : wf w -> alive (get_db w d) = true -> top_of w d = Some t ->
  check_name key ty = Ok tt -> key_of ty key = key -> U key ->
  exists w', set_no_check ty (grow w v) d key (length (heap w)) = (w', Ret true) /\ wf w' /\ within (family w d) w w' /\
    forall e k, lookup w' e k = if touched ty w d t key e && str_eqb k key then Some v else lookup w e k.
Proof.
  intros W L Ht Ck Kk Uk. destruct (set_no_check_ok ty U w d key v W L Ck Kk Uk) as [[X _]|(t' & w' & Ht' & E1 & E2 & E3)]; [congruence|].
  assert (t' = t) by congruence. subst t'. exists w'. split; [auto|]. split; [auto|]. split.
  - pose proof (top_facts _ _ _ _ _ W L Ht) as (_ & _ & -> & _).
    eapply (edit_within ty U (grow w v)); eauto. cbn. eauto. intros e k H. eapply setting_within; eauto.
  - apply lookup_setting; auto.
Qed.
(** [set_obj_ptr] with a pointer that the parent does not already hold under this name. *)
Lemma set_obj_ptr_lookup w d name p v t : wf w -> alive (get_db w d) = true -> top_of w d = Some t ->
  check_name (key_of ty name) ty = Ok tt -> U (key_of ty name) -> nth_error (heap w) p = Some v ->
  find (key_of ty name) (objs (get_db w t)) <> Some p ->
  exists w', set_obj_ptr ty w d name p = (w', Ret true) /\ wf w' /\ within (family w d) w w' /\
    forall e k, lookup w' e k = if touched ty w d t (key_of ty name) e && str_eqb k (key_of ty name) then Some v else lookup w e k.
Proof.
  intros W L Ht Ck Uk Hp Np.
  destruct (set_obj_ptr_cases ty U w d name p W L ltac:(auto))
    as [(w' & _ & _ & _ & _ & [X|[X|X]])|[(t' & _ & Ht' & _ & X)|(t' & v' & w' & E1 & Ht' & _ & Hv & E & W')]]; try congruence.
  - exfalso. assert (t' = t) by congruence. subst t'. rewrite get_obj_ptr_exact in X by (auto; now rewrite key_idem).
    rewrite key_idem in X. destruct (find (key_of ty name) (objs (get_db w t))); congruence.
  - assert (t' = t) by congruence. assert (v' = v) by congruence. subst t' v'. exists w'.
    split; [auto|]. split; [auto|]. split; [|apply lookup_setting; auto].
    pose proof (top_facts _ _ _ _ _ W L Ht) as (_ & _ & -> & _).
    eapply (edit_within ty U (grow w v)); eauto. cbn. eauto. intros a k H. eapply setting_within; eauto.
Qed.
Lemma set_lookup w d name v t : wf w -> alive (get_db w d) = true -> top_of w d = Some t ->
  check_name (key_of ty name) ty = Ok tt -> U (key_of ty name) ->
  exists w', set ty w d name v = (w', Ret true) /\ wf w' /\ within (family w d) w w' /\
    forall e k, lookup w' e k = if touched ty w d t (key_of ty name) e && str_eqb k (key_of ty name) then Some v else lookup w e k.
Proof.
  intros W L Ht Ck Uk. unfold set, alloc. fold (grow w v).
  destruct (set_obj_ptr_lookup (grow w v) d name (length (heap w)) v t) as (w' & A & B & C & D); auto using wf_grow.
  - cbn [heap grow]. rewrite nth_error_app2, Nat.sub_diag by lia. reflexivity.
  - intros F. apply find_In in F. apply (wf_ptr _ _ _ W) in F. lia.
  - exists w'. split; [auto|]. split; [auto|]. split; [eapply grow_within; eauto|]. intros e k. rewrite D, lookup_grow; auto.
Qed.
Lemma lookup_edit w w' g : edit w w' g -> forall e k, lookup w' e k = match g e k with Some p => nth_error (heap w) p | None => None end.
Proof. intros [Eh _ _ Ef] e k. unfold lookup. now rewrite Ef, Eh. Qed.
Lemma remove_lookup w d name t : wf w -> alive (get_db w d) = true -> top_of w d = Some t -> U (key_of ty name) ->
  let key := key_of ty name in
  exists w' b, remove ty w d name = (w', Ret b) /\ wf w' /\ within (family w d) w w' /\
    b = is_some (lookup w d key) && is_some (lookup w t key) /\
    forall e k, lookup w' e k = if b && in_family w t e && str_eqb k key then None else lookup w e k.
Proof.
  intros W L Ht Uk key. destruct (remove_ok ty U w d name W L) as [A B].
  destruct (remove_cases ty U w d name W L) as [[_ X]|[(t' & E & Ht' & C)|(t' & w' & E & Ht' & C1 & C2 & Ed)]]; [congruence| |].
  - assert (t' = t) by congruence. subst t'. rewrite E in *. exists w, false. split; [auto|]. split; [auto|]. split; [auto|].
    rewrite !contains_exact, !key_idem in C by (auto; now rewrite key_idem). rewrite !is_some_lookup by auto. auto.
  - assert (t' = t) by congruence. subst t'. rewrite E in *. exists w', true. split; [auto|]. split; [auto|]. split; [auto|].
    rewrite contains_exact, key_idem in C1 by (auto; now rewrite key_idem).
    rewrite contains_exact, key_idem in C2 by (auto; now rewrite key_idem).
    rewrite !is_some_lookup by auto. fold key in C1, C2. rewrite C1, C2. split; [auto|].
    intros e k. rewrite (lookup_edit _ _ _ Ed). cbn [andb]. fold key. destruct (_ && _); auto.
Qed.
Lemma rename_lookup w d old new ow : wf w -> alive (get_db w d) = true -> U (key_of ty old) -> U (key_of ty new) ->
  let a := key_of ty old in let b := key_of ty new in
  (exists r, rename ty w d old new ow = (w, r) /\ r <> Ret true /\
     (forall t, top_of w d = Some t -> lookup w t a = lookup w d a ->
        may_rename ty = false \/ valid ty b = false \/ lookup w d a = None \/ (ow = false /\ lookup w t b <> None))) \/
  (exists t w', rename ty w d old new ow = (w', Ret true) /\ wf w' /\ within (family w d) w w' /\ top_of w d = Some t /\
     lookup w d a <> None /\ lookup w t a <> None /\ valid ty b = true /\ may_rename ty = true /\
     (ow = true \/ lookup w t b = None) /\
     forall e k, lookup w' e k =
       if Nat.eqb e t || (in_list e (kids (get_db w t)) && is_some (lookup w e a)) then
         if str_eqb k b then lookup w t a else if str_eqb k a then None else lookup w e k
       else lookup w e k).
Proof.
  intros W L Ua Ub a b.
  assert (Ka : key_of ty a = a) by apply key_idem. assert (Kb : key_of ty b = b) by apply key_idem.
  assert (Ce : forall e, contains ty (get_db w e) a = is_some (lookup w e a)).
  { intros e. rewrite contains_exact by (auto; now rewrite Ka). rewrite Ka.
    now rewrite is_some_lookup. }
  assert (Cb : forall e, contains ty (get_db w e) b = is_some (lookup w e b)).
  { intros e. rewrite contains_exact by (auto; now rewrite Kb). rewrite Kb.
    now rewrite is_some_lookup. }
  destruct (rename_cases ty U w d old new ow W L) as [(r & E & Nr)|(t & w' & p & E & Ht & Cn & Cd & Cow & Gp & Ed)].
  - left. exists r. split; [auto|]. split; [auto|]. intros t Ht Coh.
    destruct (may_rename ty) eqn:Mr; auto. right.
    destruct (valid ty b) eqn:Vb; auto. right.
    destruct (lookup w d a) as [va|] eqn:La; auto. right.
    unfold rename in E. fold a in E. fold b in E. rewrite Ht, Ce, La in E. cbn [is_some negb] in E.
    assert (NO : objs (get_db w d) <> []).
    { intros X. unfold lookup in La. rewrite X in La. discriminate. }
    assert (Gp : exists p, get_obj_ptr ty (get_db w t) a = Ok p).
    { rewrite get_obj_ptr_exact by (auto; now rewrite Ka). rewrite Ka.
      unfold lookup in Coh. destruct (find a (objs (get_db w t))); [eauto|discriminate]. }
    destruct Gp as [p Gp]. rewrite Gp, Cb in E.
    unfold valid in Vb. destruct (check_name b ty) eqn:Cn; try discriminate.
    destruct ow; cbn [negb andb] in E.
    + exfalso. unfold may_rename in Mr. destruct (objs (get_db w d)); [congruence|]. destruct ty; try discriminate; inversion E; subst; congruence.
    + split; auto. intros X. rewrite X in E. cbn [is_some] in E.
      unfold may_rename in Mr. destruct (objs (get_db w d)); [congruence|]. destruct ty; try discriminate; inversion E; subst; congruence.
  - right. exists t, w'.  destruct (rename_ok ty U w d old new ow W L ltac:(auto)) as [A B].
    assert (Mr : may_rename ty = true).
    { unfold may_rename. destruct ty; auto. unfold rename in E. inversion E. }
    rewrite E in *. cbn [fst] in *. split; [auto|]. split; [auto|]. split; [auto|]. split; [auto|].
    rewrite Ce in Cd. assert (X : lookup w d a <> None) by (destruct (lookup w d a); discriminate).
    split; [auto|].
    change (key_of ty old) with a in Gp. rewrite get_obj_ptr_exact in Gp by (auto; now rewrite Ka). rewrite Ka in Gp.
    assert (F : find a (objs (get_db w t)) = Some p) by (destruct (find a (objs (get_db w t))); congruence).
    destruct (ptr_valid w t a p W F) as [v Hv].
    assert (Lt : lookup w t a = Some v) by (unfold lookup; now rewrite F).
    split; [congruence|]. split; [unfold valid, b; now rewrite Cn|]. split; [auto|]. split.
    { destruct Cow as [|Cow]; auto. right. change (key_of ty new) with b in Cow. rewrite Cb in Cow. destruct (lookup w t b); auto. discriminate. }
    intros e k. rewrite (lookup_edit _ _ _ Ed). unfold moving. change (key_of ty old) with a. change (key_of ty new) with b. rewrite Ce.
    destruct (_ || _); auto. destruct (str_eqb k b); [congruence|]. destruct (str_eqb k a); auto.
Qed.

(** Objects outside the family of a call. *)
Lemma within_lookup F w w' e k : wf w -> within F w w' -> family w e <> F -> lookup w' e k = lookup w e k.
Proof.
  intros W ((l & Hl) & _ & Ho) N. unfold lookup. rewrite Ho by auto.
  destruct (find k (objs (get_db w e))) as [p|] eqn:E; auto. rewrite Hl. apply nth_error_app1.
  apply find_In in E. eapply wf_ptr; eauto.
Qed.
Lemma within_find F w w' e k : within F w w' -> family w e <> F ->
  find k (objs (get_db w' e)) = find k (objs (get_db w e)).
Proof. intros (_ & _ & Ho) N. now rewrite Ho. Qed.

(** Copying an object of another family. *)
Lemma copy_lookup w d e n m t v : wf w -> alive (get_db w d) = true -> top_of w d = Some t ->
  family w d <> family w e -> U (key_of ty n) -> U (key_of ty m) -> check_name (key_of ty m) ty = Ok tt ->
  lookup w e (key_of ty n) = Some v ->
  exists w', copy_obj_from ty w d e n m = (w', Ret true) /\ wf w' /\ within (family w d) w w' /\
    forall x k, lookup w' x k = if touched ty w d t (key_of ty m) x && str_eqb k (key_of ty m) then Some v else lookup w x k.
Proof.
  intros W L Ht NF Un Um Ck Lv. unfold copy_obj_from. rewrite get_obj_ptr_exact by auto.
  apply lookup_find in Lv; auto. destruct Lv as (p & F & Hp). rewrite F.
  apply set_obj_ptr_lookup; auto. intros X. apply NF.
  pose proof (top_facts _ _ _ _ _ W L Ht) as (_ & Kt & Fd & _).
  rewrite Fd. assert (Ft : family w t = t) by (unfold family; destruct (kind (get_db w t)); auto; congruence).
  rewrite <- Ft. apply (wf_sep _ _ _ W t e p); eexists; apply find_In; eauto.
Qed.

Lemma merge_body_lookup w d e ow n t : wf w -> alive (get_db w d) = true -> top_of w d = Some t ->
  family w d <> family w e -> In n (keys (objs (get_db w e))) ->
  exists w', merge_body ty d e ow w n = (w', Ret true) /\ wf w' /\ within (family w d) w w' /\
    forall k, lookup w' d k = if str_eqb k n && (ow || negb (is_some (lookup w d n))) then lookup w e n else lookup w d k.
Proof.
  intros W L Ht NF HI. destruct (key_facts ty U w e n W HI) as (Ck & Kn & Un).
  assert (Cx : forall x, contains ty (get_db w x) n = is_some (lookup w x n)).
  { intros x. rewrite contains_exact by (auto; now rewrite Kn). rewrite Kn. now rewrite is_some_lookup. }
  assert (Le : exists v, lookup w e n = Some v).
  { destruct (lookup w e n) eqn:E; eauto. unfold lookup in E. destruct (find n (objs (get_db w e))) as [p|] eqn:F.
    - destruct (ptr_valid w e n p W F). congruence.
    - apply find_None in F. contradiction. }
  destruct Le as [v Le].
  unfold merge_body. rewrite Cx, Le. cbn [is_some]. rewrite Cx. destruct (lookup w d n) as [vd|] eqn:Ld; cbn [is_some negb].
  - destruct ow; cbn [orb].
    2: { exists w. split; [auto|]. split; [auto|]. split; [apply within_refl|]. intros k. now rewrite andb_false_r. }
    destruct (remove_lookup w d n t W L Ht ltac:(now rewrite Kn)) as (w1 & b & E & W1 & Wi & _ & Lk). rewrite Kn in Lk.
    rewrite E.
    assert (S1 : shape w w1) by apply Wi.
    assert (Fe : family w e <> family w d) by (apply not_eq_sym; auto).
    destruct (copy_lookup w1 d e n n t v) as (w2 & E2 & W2 & Wi2 & Lk2); auto; try (now rewrite Kn).
    { now rewrite (shape_alive w w1). }
    { now rewrite (shape_top w w1). }
    { rewrite !(shape_family w w1); auto. }
    { rewrite Kn. rewrite (within_lookup (family w d) w w1); auto. }
    exists w2. split; [auto|]. split; [auto|]. split.
    { rewrite (shape_family w w1) in Wi2 by auto. eapply within_trans; eauto. }
    intros k. rewrite Lk2, Kn. unfold touched. rewrite Nat.eqb_refl. cbn [orb andb].
    destruct (str_eqb k n) eqn:Ek; cbn [andb]; [auto|]. rewrite Lk, Ek. now rewrite andb_false_r.
  - destruct (copy_lookup w d e n n t v) as (w2 & E2 & W2 & Wi2 & Lk2); auto; try (now rewrite Kn).
    exists w2. split; [auto|]. split; [auto|]. split; [auto|].
    intros k. rewrite Lk2, Kn. unfold touched. rewrite Nat.eqb_refl, orb_true_r. cbn [orb andb].
    destruct (str_eqb k n) eqn:Ek; cbn [andb]; auto.
Qed.
Fixpoint mem (k : str) (l : list str) : bool := match l with [] => false | x :: l' => str_eqb k x || mem k l' end.
Lemma mem_In k l : mem k l = true <-> In k l.
Proof.
  induction l as [|x l IH]; cbn; [split; [discriminate|tauto]|]. rewrite orb_true_iff, IH, str_eqb_iff.
  split; intros [H|H]; auto.
Qed.
Lemma merge_loop_lookup names d e ow t : forall w, wf w -> alive (get_db w d) = true -> top_of w d = Some t ->
  family w d <> family w e -> (forall n, In n names -> In n (keys (objs (get_db w e)))) -> NoDup names ->
  exists w', each names (merge_body ty d e ow) w = (w', Ret true) /\ wf w' /\ within (family w d) w w' /\
    forall k, lookup w' d k = if mem k names && (ow || negb (is_some (lookup w d k))) then lookup w e k else lookup w d k.
Proof.
  induction names as [|n names IH]; intros w W L Ht NF Hn ND; cbn [each].
  - exists w. split; [auto|]. split; [auto|]. split; [apply within_refl|auto].
  - inversion ND; subst.
    destruct (merge_body_lookup w d e ow n t W L Ht NF ltac:(apply Hn; now left)) as (w1 & E1 & W1 & Wi1 & Lk1).
    rewrite E1. assert (S1 : shape w w1) by apply Wi1.
    destruct (IH w1 W1) as (w2 & E2 & W2 & Wi2 & Lk2); auto.
    { now rewrite (shape_alive w w1). }
    { now rewrite (shape_top w w1). }
    { rewrite !(shape_family w w1); auto. }
    { intros x Hx. destruct Wi1 as (_ & _ & Ho). rewrite Ho by auto. apply Hn. now right. }
    exists w2. split; [auto|]. split; [auto|]. split.
    { rewrite (shape_family w w1) in Wi2 by auto. eapply within_trans; eauto. }
    intros k. rewrite Lk2, Lk1. rewrite (within_lookup (family w d) w w1 e) by auto. cbn [mem].
    destruct (str_eqb k n) eqn:Ek; cbn [orb andb].
    + apply str_eqb_iff in Ek. subst k.
      assert (mem n names = false) as -> by (destruct (mem n names) eqn:M; auto; apply mem_In in M; contradiction).
      cbn [andb]. auto.
    + auto.
Qed.
Lemma merge_lookup w d e ow c t : wf w -> alive (get_db w d) = true -> alive (get_db w e) = true -> top_of w d = Some t ->
  family w d <> family w e ->
  exists w', merge ty w d e ow c = ((if c && negb (is_nil (objs (get_db w e))) then clear w' e else w'), Ret true) /\
    wf w' /\ within (family w d) w w' /\
    forall k, lookup w' d k = if is_some (lookup w e k) && (ow || negb (is_some (lookup w d k))) then lookup w e k else lookup w d k.
Proof.
  intros W L Le Ht NF.
  assert (Mem : forall k, mem k (keys (objs (get_db w e))) = is_some (lookup w e k)).
  { intros k. rewrite is_some_lookup by auto. destruct (find k (objs (get_db w e))) as [p|] eqn:F; cbn [is_some].
    - apply mem_In. apply find_In in F. change k with (fst (k, p)). now apply in_map.
    - destruct (mem k (keys (objs (get_db w e)))) eqn:M; auto. apply mem_In in M. apply find_None in F. contradiction. }
  destruct (merge_loop_lookup (keys (objs (get_db w e))) d e ow t w W L Ht NF ltac:(auto)) as (w' & E & W' & Wi & Lk).
  { apply sorted_NoDup. eapply wf_sorted; eauto. }
  exists w'. split; [|split; [auto|]; split; [auto|]; intros k; rewrite Lk, Mem; auto].
  unfold merge. fold (@merge_body T ty d e ow).
  destruct (objs (get_db w e)) as [|kv rest] eqn:Eo.
  - cbn [keys map each] in E. inversion E. cbn [is_nil negb]. now rewrite andb_false_r.
  - rewrite E. cbn [is_nil negb]. now rewrite andb_true_r.
Qed.
End W.
