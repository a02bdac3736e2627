(** Every call keeps the invariant and stays within the family of databases it is called on. *)
From Coq Require Import ZArith Ascii String List Bool Lia Sorted.
From Verif Require Import M_Base M_Names M_Lex S_Names L_Names M_Kdb S_Kdb L_Kdb L_Kdb2.
Import ListNotations.
Open Scope Z_scope.

Section W.
Context {T : Type}.
Variable ty : otype.
Variable U : str -> Prop.
Notation world := (world T).
Implicit Types w : world.
Notation wf := (wf ty U).

Definition grow w (v : T) : world := mkW (heap w ++ [v]) (dbs w).
Lemma wf_grow w v : wf w -> wf (grow w v).
Proof.
  intros [? ? Hp ? ? ? ?]. constructor; auto.
  intros d k p H. cbn. rewrite app_length. cbn. apply (Hp d k p) in H. lia.
Qed.
Lemma fresh_ptr w d : wf w -> ~ owns w d (length (heap w)).
Proof. intros W [k H]. apply (wf_ptr _ _ _ W) in H. lia. Qed.

Lemma check_key name : check_name (key_of ty name) ty = Ok tt \/ check_name (key_of ty name) ty = Throw.
Proof. unfold check_name. destruct (key_of ty name); auto. destruct (_ <? _); auto. destruct (regex_match_name _ _); auto. Qed.
Lemma key_idem name : key_of ty (key_of ty name) = key_of ty name.
Proof. apply to_key_idem. Qed.

Definition setting w d t key p : nat -> str -> option nat :=
  fun e k => if touched ty w d t key e && str_eqb k key then Some p else find k (objs (get_db w e)).

Lemma touched_family w d t key e : wf w -> alive (get_db w d) = true -> top_of w d = Some t ->
  touched ty w d t key e = true -> family w e = t.
Proof.
  intros W L Ht H. pose proof (top_facts _ _ _ _ _ W L Ht) as (At & Kt & Fd & Ud & Td & Cd).
  unfold touched in H. apply orb_true_iff in H. destruct H as [H|H].
  - apply orb_true_iff in H. destruct H as [H|H]; apply Nat.eqb_eq in H; subst e; auto.
    unfold family. destruct (kind (get_db w t)); auto. congruence.
  - apply andb_true_iff in H. destruct H as [H _]. apply in_list_iff in H. eapply kid_family; eauto.
Qed.
Lemma wf_setting w w' d t key p : wf w -> alive (get_db w d) = true -> top_of w d = Some t ->
  check_name key ty = Ok tt -> key_of ty key = key -> U key ->
  (p < length (heap w))%nat -> (forall e, ~ owns w e p) ->
  edit w w' (setting w d t key p) -> wf w'.
Proof.
  intros W L Ht Ck Kk Uk Lp Np E. eapply (wf_edit ty U w w' _ t p); eauto; unfold setting.
  - intros e k q H. destruct (touched _ _ _ _ _ _ && str_eqb k key) eqn:B.
    + apply andb_true_iff in B. destruct B as [_ B]. apply str_eqb_iff in B. now subst.
    + apply find_In in H. eapply wf_valid; eauto.
  - intros e k q H. destruct (touched _ _ _ _ _ _) eqn:B; cbn [andb] in H.
    + destruct (str_eqb k key).
      * right. inversion H. subst. repeat split; auto. eapply touched_family; eauto.
      * left. exists e. split; auto. exists k. now apply find_In.
    + left. exists e. split; auto. exists k. now apply find_In.
Qed.

Lemma set_no_check_ok w d key v : wf w -> alive (get_db w d) = true ->
  check_name key ty = Ok tt -> key_of ty key = key -> U key ->
  (top_of w d = None /\ set_no_check ty (grow w v) d key (length (heap w)) = (grow w v, Exc)) \/
  exists t w', top_of w d = Some t /\ set_no_check ty (grow w v) d key (length (heap w)) = (w', Ret true) /\
    edit (grow w v) w' (setting w d t key (length (heap w))) /\ wf w'.
Proof.
  intros W L Ck Kk Uk. destruct (top_of w d) as [t|] eqn:Ht.
  - right. exists t.
    destruct (set_no_check_eff ty U (grow w v) d key (length (heap w)) t (wf_grow _ _ W) L Ht) as (w' & E1 & E2).
    exists w'. split; [|split; [|split]]; auto.
    eapply (wf_setting (grow w v)); eauto using wf_grow.
    + cbn. rewrite app_length. cbn. lia.
    + intros e. apply (fresh_ptr w e W).
  - left. split; auto. unfold set_no_check. change (top_of (grow w v) d) with (top_of w d). now rewrite Ht.
Qed.

(** The three outcomes of [set_obj_ptr]. *)
Lemma set_obj_ptr_cases w d name p : wf w -> alive (get_db w d) = true ->
  (check_name (key_of ty name) ty = Ok tt -> U (key_of ty name)) ->
  let key := key_of ty name in
  (exists w', set_obj_ptr ty w d name p = (w', Exc) /\ dbs w' = dbs w /\ (exists l, heap w' = heap w ++ l) /\ wf w' /\
     (check_name key ty <> Ok tt \/ nth_error (heap w) p = None \/ top_of w d = None)) \/
  (exists t, set_obj_ptr ty w d name p = (w, Ret true) /\ top_of w d = Some t /\ check_name key ty = Ok tt /\
     get_obj_ptr ty (get_db w t) key = Ok p) \/
  (exists t v w', set_obj_ptr ty w d name p = (w', Ret true) /\ top_of w d = Some t /\
     check_name key ty = Ok tt /\ nth_error (heap w) p = Some v /\
     edit (grow w v) w' (setting w d t key (length (heap w))) /\ wf w').
Proof.
  intros W L Uk key. unfold set_obj_ptr. fold key.
  destruct (check_key name) as [Ck|Ck]; fold key in Ck; rewrite Ck.
  2: { left. exists w. split; [auto|]. split; [auto|]. split; [exists []; now rewrite app_nil_r|]. split; [auto|]. left. congruence. }
  destruct (nth_error (heap w) p) as [v|] eqn:Np.
  2: { left. exists w. split; [auto|]. split; [auto|]. split; [exists []; now rewrite app_nil_r|]. split; auto. }
  destruct (top_of w d) as [t|] eqn:Ht.
  2: { left. exists w. split; [auto|]. split; [auto|]. split; [exists []; now rewrite app_nil_r|]. split; auto. }
  destruct (match get_obj_ptr ty (get_db w t) key with Ok q => Nat.eqb q p | _ => false end) eqn:Sm.
  { right. left. exists t. split; [|split; [|split]]; auto. destruct (get_obj_ptr ty (get_db w t) key); try discriminate.
    apply Nat.eqb_eq in Sm. now subst. }
  right. right. cbn [alloc]. exists t, v.
  destruct (set_no_check_ok w d key v W L Ck (key_idem name) (Uk Ck)) as [[H _]|(t' & w' & H & E1 & E2 & E3)]; [congruence|].
  assert (t' = t) by congruence. subst t'. exists w'. change (mkW (heap w ++ [v]) (dbs w)) with (grow w v).
  rewrite E1. split; [auto|]. split; [auto|]. split; [auto|]. split; [auto|]. split; auto.
Qed.

(** [w'] differs from [w] by new objects and by the content of databases of family [F]. *)
Definition within (F : nat) w w' : Prop :=
  (exists l, heap w' = heap w ++ l) /\ shape w w' /\
  forall e, family w e <> F -> objs (get_db w' e) = objs (get_db w e).
Lemma within_refl F w : within F w w.
Proof. split; [|split]; auto. exists []. now rewrite app_nil_r. apply shape_refl. Qed.
Lemma shape_trans w1 w2 w3 : shape w1 w2 -> shape w2 w3 -> shape w1 w3.
Proof.
  intros [A B] [C D]. split; [congruence|]. intros e. destruct (B e) as (? & ? & ? & ?), (D e) as (? & ? & ? & ?).
  repeat split; congruence.
Qed.
Lemma within_trans F w1 w2 w3 : within F w1 w2 -> within F w2 w3 -> within F w1 w3.
Proof.
  intros ((l1 & H1) & S1 & O1) ((l2 & H2) & S2 & O2). split; [|split].
  - exists (l1 ++ l2). now rewrite H2, H1, app_assoc.
  - eapply shape_trans; eauto.
  - intros e H. rewrite O2, O1; auto. now rewrite (shape_family w1 w2).
Qed.
Lemma shape_alive w w' d : shape w w' -> alive (get_db w' d) = alive (get_db w d).
Proof. intros [_ H]. now destruct (H d) as (_ & -> & _). Qed.
Lemma shape_top w w' d : shape w w' -> top_of w' d = top_of w d.
Proof.
  intros [_ H]. unfold top_of. destruct (H d) as (-> & _ & -> & _).
  now destruct (H (up (get_db w d))) as (_ & -> & _).
Qed.
Lemma edit_within w0 w w' g F : wf w -> dbs w0 = dbs w -> (exists l, heap w0 = heap w ++ l) -> edit w0 w' g ->
  (forall e k, family w e <> F -> g e k = find k (objs (get_db w e))) -> within F w w'.
Proof.
  intros W D (l & Hl) [Eh Es Eso Ef] G. split; [|split].
  - exists l. congruence.
  - destruct Es as [A B]. rewrite D in A. split; auto. intros e. specialize (B e).
    unfold get_db in *. now rewrite D in B.
  - intros e H. apply find_ext; auto; [eapply wf_sorted; eauto|]. intros k. rewrite Ef. auto.
Qed.
Lemma setting_within w d t key p e k : wf w -> alive (get_db w d) = true -> top_of w d = Some t ->
  family w e <> t -> setting w d t key p e k = find k (objs (get_db w e)).
Proof.
  intros W L Ht H. unfold setting. destruct (touched ty w d t key e) eqn:E; auto.
  exfalso. apply H. eapply touched_family; eauto.
Qed.

Definition ok_within w d (r : world * out) : Prop := wf (fst r) /\ within (family w d) w (fst r).

Lemma set_obj_ptr_ok w d name p : wf w -> alive (get_db w d) = true ->
  (check_name (key_of ty name) ty = Ok tt -> U (key_of ty name)) ->
  ok_within w d (set_obj_ptr ty w d name p).
Proof.
  intros W L Uk. destruct (set_obj_ptr_cases w d name p W L Uk)
    as [(w' & -> & D & (l & Hl) & W' & _)|[(t & -> & _)|(t & v & w' & -> & Ht & Ck & _ & E & W')]]; split; auto; cbn [fst].
  - split; [eauto|]. split.
    + split; [congruence|]. intros e. unfold get_db. now rewrite D.
    + intros e _. unfold get_db. now rewrite D.
  - apply within_refl.
  - pose proof (top_facts _ _ _ _ _ W L Ht) as (_ & _ & -> & _).
    eapply (edit_within (grow w v)); eauto.
    + cbn. eauto.
    + intros e k H. now apply setting_within.
Qed.

Lemma grow_within F w v w' : within F (grow w v) w' -> within F w w'.
Proof.
  intros ((l & H) & S & O). cbn in H. split; [|split]; auto.
  exists ([v] ++ l). now rewrite H, app_assoc.
Qed.
Lemma set_ok w d name v : wf w -> alive (get_db w d) = true ->
  (check_name (key_of ty name) ty = Ok tt -> U (key_of ty name)) -> ok_within w d (set ty w d name v).
Proof.
  intros W L Uk. unfold set, alloc. cbn [fst snd].
  destruct (set_obj_ptr_ok (grow w v) d name (length (heap w)) (wf_grow _ _ W) L Uk) as [A B].
  split; auto. eapply grow_within. exact B.
Qed.
Lemma update_ok w d name v : wf w -> alive (get_db w d) = true ->
  (check_name (key_of ty name) ty = Ok tt -> U (key_of ty name)) -> ok_within w d (update ty w d name v).
Proof.
  intros W L Uk. unfold update. destruct (contains _ _ _).
  - apply set_ok; auto. now rewrite key_idem.
  - split; auto. apply within_refl.
Qed.
Lemma add_ok w d name v : wf w -> alive (get_db w d) = true ->
  (check_name (key_of ty name) ty = Ok tt -> U (key_of ty name)) -> ok_within w d (add ty w d name v).
Proof.
  intros W L Uk. assert (R : ok_within w d (w, Exc)) by (split; auto; apply within_refl).
  unfold add. destruct (check_key name) as [Ck|Ck]; rewrite Ck; auto.
  destruct (contains _ _ _); auto. destruct (parent_contains _ _ _ _); auto. cbn [alloc].
  change (mkW (heap w ++ [v]) (dbs w)) with (grow w v).
  destruct (set_no_check_ok w d (key_of ty name) v W L Ck (key_idem name) (Uk Ck))
    as [[_ ->]|(t & w' & Ht & -> & E & W')]; split; auto; cbn [fst].
  - now apply wf_grow.
  - apply grow_within with (v := v). apply within_refl.
  - pose proof (top_facts _ _ _ _ _ W L Ht) as (_ & _ & -> & _).
    eapply (edit_within (grow w v)); eauto.
    + cbn. eauto.
    + intros e k H. now apply setting_within.
Qed.

Lemma in_family_family w d t e : wf w -> alive (get_db w d) = true -> top_of w d = Some t ->
  in_family w t e = true -> family w e = t.
Proof.
  intros W L Ht H. pose proof (top_facts _ _ _ _ _ W L Ht) as (At & Kt & Fd & Ud & Td & Cd).
  unfold in_family in H. apply orb_true_iff in H. destruct H as [H|H].
  - apply Nat.eqb_eq in H. subst e. unfold family. destruct (kind (get_db w t)); auto. congruence.
  - apply in_list_iff in H. eapply kid_family; eauto.
Qed.
Lemma remove_cases w d name : wf w -> alive (get_db w d) = true ->
  (remove ty w d name = (w, Exc) /\ top_of w d = None) \/
  (exists t, remove ty w d name = (w, Ret false) /\ top_of w d = Some t /\
     contains ty (get_db w d) (key_of ty name) && contains ty (get_db w t) (key_of ty name) = false) \/
  (exists t w', remove ty w d name = (w', Ret true) /\ top_of w d = Some t /\
    contains ty (get_db w d) (key_of ty name) = true /\ contains ty (get_db w t) (key_of ty name) = true /\
    edit w w' (fun e k => if in_family w t e && str_eqb k (key_of ty name) then None else find k (objs (get_db w e)))).
Proof.
  intros W L. destruct (top_of w d) as [t|] eqn:Ht.
  2: { left. unfold remove. now rewrite Ht. }
  right. destruct (contains ty (get_db w d) (key_of ty name) && contains ty (get_db w t) (key_of ty name)) eqn:C.
  - right. apply andb_true_iff in C. destruct C as [C1 C2].
    destruct (remove_eff ty U w d name t W L Ht C1 C2) as (w' & E1 & E2). exists t, w'. split; [auto|]. split; [auto|]. split; [auto|]. split; auto.
  - left. exists t. split; [|split]; auto. unfold remove. now rewrite Ht, C.
Qed.
Lemma remove_ok w d name : wf w -> alive (get_db w d) = true -> ok_within w d (remove ty w d name).
Proof.
  intros W L. destruct (remove_cases w d name W L) as [[-> _]|[(t & -> & _)|(t & w' & -> & Ht & _ & _ & E)]];
    try (split; auto; apply within_refl).
  split; cbn [fst].
  - eapply (wf_edit ty U w w' _ t 0%nat); eauto; cbn beta.
    + intros e k q H. destruct (_ && _); [discriminate|]. apply find_In in H. eapply wf_valid; eauto.
    + intros e k q H. left. exists e. split; auto. exists k. destruct (_ && _); [discriminate|]. now apply find_In.
  - pose proof (top_facts _ _ _ _ _ W L Ht) as (_ & _ & -> & _).
    eapply (edit_within w); eauto.
    + exists []. now rewrite app_nil_r.
    + intros e k H. cbn beta. destruct (in_family w t e) eqn:E2; auto. exfalso. apply H. eapply in_family_family; eauto.
Qed.

Lemma get_obj_ptr_In b name p : get_obj_ptr ty b name = Ok p -> exists k, In (k, p) (objs b).
Proof.
  unfold get_obj_ptr. destruct (get_key ty b name) as [|c k]; [discriminate|].
  destruct (find (c :: k) (objs b)) eqn:E; [|discriminate]. intros H. inversion H. subst.
  exists (c :: k). now apply find_In.
Qed.
Lemma get_obj_ptr_not_ub b name : get_obj_ptr ty b name <> UB.
Proof. unfold get_obj_ptr. destruct (get_key ty b name); [discriminate|]. destruct (find _ _); discriminate. Qed.

Definition moving w t okey nkey p : nat -> str -> option nat := fun e k =>
  if Nat.eqb e t || (in_list e (kids (get_db w t)) && contains ty (get_db w e) okey) then
    if str_eqb k nkey then Some p else if str_eqb k okey then None else find k (objs (get_db w e))
  else find k (objs (get_db w e)).
Lemma rename_cases w d old new ow : wf w -> alive (get_db w d) = true ->
  let okey := key_of ty old in let nkey := key_of ty new in
  (exists r, rename ty w d old new ow = (w, r) /\ r <> Ret true) \/
  (exists t w' p, rename ty w d old new ow = (w', Ret true) /\ top_of w d = Some t /\
    check_name nkey ty = Ok tt /\ contains ty (get_db w d) okey = true /\
    (ow = true \/ contains ty (get_db w t) nkey = false) /\
    get_obj_ptr ty (get_db w t) okey = Ok p /\ edit w w' (moving w t okey nkey p)).
Proof.
  intros W L okey nkey.
  destruct (match ty with EQUATIONS => true | _ => false end) eqn:Te.
  { left. exists Exc. split; [|discriminate]. unfold rename. destruct ty; try discriminate. auto. }
  assert (NE : ty <> EQUATIONS) by (intros ->; discriminate).
  assert (R : rename ty w d old new ow =
    match objs (get_db w d) with
    | [] => (w, Ret false)
    | _ =>
      match check_name nkey ty with
      | Ok _ =>
        if negb (contains ty (get_db w d) okey) then (w, Exc)
        else match top_of w d with
        | None => (w, Exc)
        | Some t =>
          if negb ow && contains ty (get_db w t) nkey then (w, Exc)
          else match get_obj_ptr ty (get_db w t) okey with
          | Ok p =>
            let move := set_objs (fun m => put nkey p (del okey m)) in
            let w1 := upd_db w t move in
            (fold_left (fun w c => if contains ty (get_db w c) okey then upd_db w c move else w)
                       (children w1 d) w1, Ret true)
          | _ => (w, Exc)
          end
        end
      | _ => (w, Exc)
      end
    end).
  { unfold rename, okey, nkey. destruct ty; auto. congruence. }
  assert (X : forall r, r <> Ret true -> rename ty w d old new ow = (w, r) ->
    exists r, rename ty w d old new ow = (w, r) /\ r <> Ret true) by (intros r H1 H2; exists r; auto).
  destruct (objs (get_db w d)) eqn:NO.
  { left. eapply X; eauto. discriminate. }
  destruct (check_key new) as [Cn|Cn]; fold nkey in Cn; rewrite Cn in R.
  2: { left. eapply X; eauto. discriminate. }
  destruct (contains ty (get_db w d) okey) eqn:Cd; cbn [negb] in R.
  2: { left. eapply X; eauto. discriminate. }
  destruct (top_of w d) as [t|] eqn:Ht.
  2: { left. eapply X; eauto. discriminate. }
  destruct (negb ow && contains ty (get_db w t) nkey) eqn:Cow.
  { left. eapply X; eauto. discriminate. }
  destruct (get_obj_ptr ty (get_db w t) okey) as [p0| |] eqn:Gp.
  2: { left. eapply X; eauto. discriminate. }
  2: { left. eapply X; eauto. discriminate. }
  right. clear R X. assert (Cow' : ow = true \/ contains ty (get_db w t) nkey = false).
  { destruct ow; auto. }
  destruct (rename_eff ty U w d old new ow t p0 W L Ht NE ltac:(rewrite NO; discriminate) Cn Cd Cow' Gp)
    as (w' & E1 & E2).
  exists t, w', p0. split; [auto|]. split; [auto|]. split; [auto|]. split; [auto|]. split; [auto|]. split; [auto|]. exact E2.
Qed.
Lemma rename_ok w d old new ow : wf w -> alive (get_db w d) = true ->
  (check_name (key_of ty new) ty = Ok tt -> U (key_of ty new)) -> ok_within w d (rename ty w d old new ow).
Proof.
  intros W L Uk. destruct (rename_cases w d old new ow W L)
    as [(r & -> & _)|(t & w' & p & -> & Ht & Cn & Cd & Cow & Gp & E)].
  { split; auto. apply within_refl. }
  pose proof (top_facts _ _ _ _ _ W L Ht) as (At & Kt & Fd & Ud & Td & Chd).
  assert (Ft : family w t = t) by (unfold family; destruct (kind (get_db w t)); auto; congruence).
  apply get_obj_ptr_In in Gp. destruct Gp as [k0 Gp].
  assert (Fm : forall e, Nat.eqb e t || (in_list e (kids (get_db w t)) && contains ty (get_db w e) (key_of ty old)) = true ->
            family w e = t).
  { intros e H. apply orb_true_iff in H. destruct H as [H|H].
    - apply Nat.eqb_eq in H. now subst.
    - apply andb_true_iff in H. destruct H as [H _]. apply in_list_iff in H. eapply kid_family; eauto. }
  split; cbn [fst].
  - eapply (wf_edit ty U w w' _ t 0%nat); eauto; unfold moving.
    + intros e k q H. destruct (_ || _).
      * destruct (str_eqb k (key_of ty new)) eqn:E1.
        -- apply str_eqb_iff in E1. subst k. split; [auto|]. split; [apply key_idem|auto].
        -- destruct (str_eqb k (key_of ty old)); [discriminate|]. apply find_In in H. eapply wf_valid; eauto.
      * apply find_In in H. eapply wf_valid; eauto.
    + intros e k q H. left.
      assert (O : find k (objs (get_db w e)) = Some q -> exists e0, family w e0 = family w e /\ owns w e0 q).
      { intros F. exists e. split; auto. exists k. now apply find_In. }
      destruct (_ || _) eqn:M; auto. destruct (str_eqb k (key_of ty new)).
      * inversion H. subst q. exists t. rewrite Ft, (Fm e M). split; auto. now exists k0.
      * destruct (str_eqb k (key_of ty old)); [discriminate|auto].
  - rewrite Fd. eapply (edit_within w); eauto.
    + exists []. now rewrite app_nil_r.
    + intros e k H. unfold moving. destruct (_ || _) eqn:M; auto. exfalso. auto.
Qed.

(** Loops. *)
Lemma each_ok (d : nat) l f : forall w, wf w -> alive (get_db w d) = true ->
  (forall w' x, In x l -> wf w' -> alive (get_db w' d) = true -> within (family w d) w w' -> ok_within w' d (f w' x)) ->
  ok_within w d (each l f w).
Proof.
  induction l as [|x l IH]; intros w W L H; cbn [each].
  - split; auto. apply within_refl.
  - destruct (H w x ltac:(now left) W L (within_refl _ _)) as [A B].
    destruct (f w x) as [w1 r]. cbn [fst] in A, B.
    assert (Fw : family w1 d = family w d) by (apply shape_family, B).
    assert (L1 : alive (get_db w1 d) = true) by (rewrite (shape_alive w w1); auto; apply B).
    destruct r as [b|]; [|split; auto].
    destruct (IH w1 A L1) as [C D].
    { intros w' y Hy W' L' Wi. rewrite Fw in Wi. apply H; auto. now right. eapply within_trans; eauto. }
    split; auto. rewrite Fw in D. eapply within_trans; eauto.
Qed.
Lemma within_ok_trans w w1 d r : within (family w d) w w1 -> ok_within w1 d r -> ok_within w d r.
Proof.
  intros A [B C]. split; auto. rewrite (shape_family w w1) in C by apply A. eapply within_trans; eauto.
Qed.
Lemma copy_obj_from_ok w d e sk dk : wf w -> alive (get_db w d) = true ->
  (check_name (key_of ty dk) ty = Ok tt -> U (key_of ty dk)) -> ok_within w d (copy_obj_from ty w d e sk dk).
Proof.
  intros W L Uk. unfold copy_obj_from. destruct (get_obj_ptr ty (get_db w e) sk); try (split; auto; apply within_refl).
  now apply set_obj_ptr_ok.
Qed.
Definition merge_body (d e : nat) (overwrite : bool) : world -> str -> world * out := fun w n =>
  if contains ty (get_db w e) n then
    if contains ty (get_db w d) n then
      if overwrite then
        match remove ty w d n with
        | (w1, Exc) => (w1, Exc)
        | (w1, _) => copy_obj_from ty w1 d e n n
        end
      else (w, Ret true)
    else copy_obj_from ty w d e n n
  else (w, Ret true).
Lemma merge_body_ok w d e ow n : wf w -> alive (get_db w d) = true ->
  (check_name (key_of ty n) ty = Ok tt -> U (key_of ty n)) -> ok_within w d (merge_body d e ow w n).
Proof.
  intros W L Uk. unfold merge_body. destruct (contains ty (get_db w e) n); [|split; auto; apply within_refl].
  destruct (contains ty (get_db w d) n).
  - destruct ow; [|split; auto; apply within_refl].
    pose proof (remove_ok w d n W L) as [A B]. destruct (remove ty w d n) as [w1 [b|]]; cbn [fst] in *; [|split; auto].
    eapply within_ok_trans; eauto. apply copy_obj_from_ok; auto. rewrite (shape_alive w w1); auto. apply B.
  - now apply copy_obj_from_ok.
Qed.
Lemma duplicate_ok w d e old new : wf w -> alive (get_db w d) = true ->
  (check_name (key_of ty new) ty = Ok tt -> U (key_of ty new)) -> ok_within w d (duplicate ty w d e old new).
Proof.
  intros W L Uk. unfold duplicate. destruct (_ && _); [split; auto; apply within_refl|].
  destruct (negb _); [split; auto; apply within_refl|].
  assert (A : ok_within w d (if contains ty (get_db w d) new then remove ty w d (key_of ty new) else (w, Ret true))).
  { destruct (contains _ _ _); [now apply remove_ok|]. split; auto. apply within_refl. }
  destruct (if contains ty (get_db w d) new then _ else _) as [w1 [b|]]; auto. destruct A as [A B]. cbn [fst] in *.
  destruct (negb _); [split; auto|]. eapply within_ok_trans; eauto.
  apply copy_obj_from_ok; auto. rewrite (shape_alive w w1); auto. apply B. now rewrite key_idem.
Qed.
End W.
