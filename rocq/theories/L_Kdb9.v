(** The statements on databases, over histories. *)
From Coq Require Import ZArith Ascii String List Bool Lia Sorted.
From Verif Require Import M_Base M_Names M_Lex S_Names L_Names M_Kdb S_Kdb L_Kdb L_Kdb2 L_Kdb3 L_Kdb4 L_Kdb5 L_Kdb6 L_Kdb7 L_Kdb8.
Import ListNotations.
Open Scope Z_scope.

Section W.
Context {T : Type}.
Variable ty : otype.
Notation world := (world T).
Notation op := (op T).
Implicit Types w : world.

Definition anything : str -> Prop := fun _ => True.
Lemma reach_any (ops : list op) : wf ty anything (run ty ops empty_world).
Proof. apply run_ok. apply wf_empty. intros o _ n _. exact I. Qed.
Lemma reach_names (ops : list op) names : incl (mentions ops) names -> wf ty (keys_of_names ty names) (run ty ops empty_world).
Proof. intros H. apply run_ok. apply wf_empty. now apply names_in_all. Qed.

(** ** Errors *)
Lemma shows_ext U w w' l : wf ty U w -> dbs w' = dbs w -> heap w' = heap w ++ l -> forall e, shows w' e = shows w e.
Proof.
  intros W D H e. eapply shows_same; eauto. unfold get_db. now rewrite D.
Qed.
Lemma single_fails w o : wf ty anything w -> single o -> snd (step ty w o) <> Ret true ->
  forall e, (e < length (dbs w))%nat -> shows (fst (step ty w o)) e = shows w e.
Proof.
  intros W Sg F e He. assert (St := step_ok ty anything w o W ltac:(intros n _; exact I)). revert F.
  assert (Any : forall n, check_name (key_of ty n) ty = Ok tt -> anything (key_of ty n)) by (intros; exact I).
  assert (Ptr : forall w0 d n p, wf ty anything w0 -> live w0 d = true -> snd (set_obj_ptr ty w0 d n p) <> Ret true ->
    forall e, shows (fst (set_obj_ptr ty w0 d n p)) e = shows w0 e).
  { intros w0 d n p W0 L F x. destruct (set_obj_ptr_cases ty anything w0 d n p W0 L (Any n))
      as [(w' & E & D & (l & Hl) & _ & _)|[(t & E & _)|(t & v & w' & E & _)]]; rewrite E in *; cbn [fst snd] in *; try congruence.
    eapply shows_ext; eauto. }
  assert (Se : forall d n v, live w d = true -> snd (set ty w d n v) <> Ret true -> shows (fst (set ty w d n v)) e = shows w e).
  { intros d n v L F. unfold set in *. cbn [alloc] in *. fold (grow w v) in *. rewrite Ptr; auto using wf_grow.
    apply (shows_ext anything w (grow w v) [v]); auto. }
  destruct o as [|d n v|d n p|d n v|d n v|d n|d a b ow|d e' ow c|d e' a b|d sel c|d|d|p v]; cbn [step fst snd single] in *;
    try contradiction; try congruence; try (destruct (live w d) eqn:L; [|now auto]).
  - auto.
  - auto.
  - unfold add. destruct (check_key ty n) as [Ck|Ck]; rewrite Ck; auto.
    destruct (contains _ _ _); auto. destruct (parent_contains _ _ _ _); auto. cbn [alloc]. fold (grow w v).
    destruct (set_no_check_ok ty anything w d (key_of ty n) v W L Ck (key_idem _ _) I) as [[_ ->]|(t & w' & Ht & -> & _)]; cbn [fst snd].
    + intros _. apply (shows_ext anything w (grow w v) [v]); auto.
    + congruence.
  - unfold update. destruct (contains _ _ _); auto.
  - destruct (remove_cases ty anything w d n W L) as [[-> _]|[(t & -> & _)|(t & w' & -> & _)]]; cbn [fst snd]; auto; congruence.
  - destruct (rename_cases ty anything w d a b ow W L) as [(r & -> & _)|(t & w' & p & -> & _)]; cbn [fst snd]; auto; congruence.
  - intros _. destruct St as (_ & K & _). now apply K.
  - cbn [snd]. congruence.
  - cbn [snd]. congruence.
Qed.

(** ** Positions *)
Lemma positions U w d : wf ty U w ->
  let b := get_db w d in
  StronglySorted (fun a b => str_ltb a b = true) (keys (objs b)) /\
  size b = Z.of_nat (length (keys (objs b))) /\
  (forall i, 0 <= i < size b -> exists n, get_name b i = Ok n /\ index_of ty b n = i) /\
  (forall i, ~ 0 <= i < size b -> get_name b i = Throw) /\
  (forall name, In (key_of ty name) (keys (objs b)) ->
     0 <= index_of ty b name < size b /\ get_name b (index_of ty b name) = Ok (key_of ty name)) /\
  (forall name, ~ In (key_of ty name) (keys (objs b)) -> index_of ty b name = -1).
Proof.
  intros W b. pose proof (wf_sorted _ _ _ W d) as S. fold b in S.
  assert (Sz : size b = Z.of_nat (length (keys (objs b)))) by (unfold size, keys; now rewrite map_length).
  split; [exact S|]. split; [exact Sz|].
  assert (Pos : forall name, In (key_of ty name) (keys (objs b)) ->
     0 <= index_of ty b name < size b /\ get_name b (index_of ty b name) = Ok (key_of ty name)).
  { intros name H. unfold index_of. destruct (position (key_of ty name) (objs b)) as [i|] eqn:P.
    - apply position_Some in P. destruct P as [P1 P2]. fold (size b) in P1.
      split; [lia|]. unfold get_name. replace ((i <? 0) || (size b <=? i)) with false by lia. now rewrite P2.
    - apply position_None in P. apply find_None in P. contradiction. }
  split.
  - intros i Hi. assert (L : (Z.to_nat i < length (keys (objs b)))%nat) by lia.
    exists (nth (Z.to_nat i) (keys (objs b)) []). unfold get_name.
    replace ((i <? 0) || (size b <=? i)) with false by lia. split; auto.
    destruct (key_facts ty U w d (nth (Z.to_nat i) (keys (objs b)) []) W) as (_ & K & _); [now apply nth_In|].
    unfold index_of. rewrite K.
    rewrite (position_nth (objs b) S (Z.to_nat i)); [lia|]. unfold keys in L. now rewrite map_length in L.
  - split; [intros i Hi; unfold get_name; now replace ((i <? 0) || (size b <=? i)) with true by lia|].
    split; [exact Pos|]. intros name H. unfold index_of. destruct (position (key_of ty name) (objs b)) as [i|] eqn:P; auto.
    apply position_Some in P. destruct P as [P1 P2]. exfalso. apply H. rewrite <- P2. apply nth_In.
    unfold keys. rewrite map_length. lia.
Qed.

(** ** Subsets and parents *)
Lemma subset_agrees (ops : list op) c t name p : Forall gentle ops -> steady_case ty (name :: mentions ops) ->
  let w := run ty ops empty_world in
  subset_of w c t -> get_obj_ptr ty (get_db w c) name = Ok p -> get_obj_ptr ty (get_db w t) name = Ok p.
Proof.
  intros G St w Sub. pose proof (exact_names _ _ St) as EX.
  assert (I : incl (mentions ops) (name :: mentions ops)) by (intros x Hx; now right).
  pose proof (reach_names ops _ I) as W. fold w in W.
  assert (C : coherent w).
  { apply (coh_run ty _ EX); auto. apply wf_empty. apply coh_empty. now apply names_in_all. }
  assert (Un : keys_of_names ty (name :: mentions ops) (key_of ty name)) by (exists name; split; [now left|reflexivity]).
  rewrite !(get_obj_ptr_exact ty _ EX) by auto.
  destruct (find (key_of ty name) (objs (get_db w c))) as [q|] eqn:F; [|discriminate]. intros H. inversion H; subst q.
  now rewrite (C t c _ _ Sub F).
Qed.
Lemma subset_made (ops : list op) d sel w' : steady_case ty (mentions ops) ->
  let w := run ty ops empty_world in
  step ty w (Subset d sel false) = (w', Ret true) ->
  subset_of w' (length (dbs w)) (family w d) /\
  forall k, lookup w' (length (dbs w)) k = if selected sel k && is_some (lookup w d k) then lookup w (family w d) k else None.
Proof.
  intros St w E. pose proof (exact_names _ _ St) as EX. pose proof (reach_names ops _ (incl_refl _)) as W. fold w in W.
  cbn [step] in E. destruct (live w d) eqn:L; [|discriminate]. unfold get_subset in E.
  destruct (filter_names (get_db w d) sel) as [names| |] eqn:Fn; try discriminate.
  destruct (top_of w d) as [t|] eqn:Ht; try discriminate.
  pose proof (top_facts _ _ _ _ _ W L Ht) as (At & Kt & Ft & _).
  assert (Hn : forall n, In n names -> check_name n ty = Ok tt /\ key_of ty n = n /\ keys_of_names ty (mentions ops) n).
  { intros n Hn. eapply key_facts; eauto. eapply filter_names_keys; eauto. }
  change (create w DB_SUBSET t) with (fst (create w DB_SUBSET t), length (dbs w)) in E. cbn iota zeta beta in E.
  pose proof (shallow_ok ty _ w t names W At Kt Hn) as Sh. cbn zeta in Sh.
  destruct (shallow_copy ty (fst (create w DB_SUBSET t)) (length (dbs w)) t names) as [w2 []]; [|discriminate].
  destruct (Sh w2 eq_refl) as (A & B & Ll & D & Ks & Hk & Hu & F1 & F2). inversion E; subst w'. clear E.
  set (w3 := upd_db w2 t _) in *. rewrite Ft. split.
  - unfold subset_of. destruct (D t ltac:(now apply live_lt)) as (_ & _ & ->). rewrite Nat.eqb_refl. apply in_or_app. right. now left.
  - intros k. rewrite (is_some_lookup ty _ _ _ _ W), <- (filter_names_mem _ _ _ k Fn).
    unfold lookup at 1. destruct (mem k names) eqn:M.
    + apply mem_In in M. destruct (F1 k M) as (p & G1 & G2). rewrite G2, B. destruct (Hn k M) as (_ & Kk & Uk).
      rewrite (get_obj_ptr_exact ty _ EX) in G1 by (auto; now rewrite Kk). rewrite Kk in G1. unfold lookup.
      destruct (find k (objs (get_db w t))); congruence.
    + rewrite F2; auto. intros X. apply mem_In in X. congruence.
Qed.

(** ** Deep copies *)
Lemma deep_copy_shows (ops : list op) d sel w' : Forall gentle ops -> steady_case ty (mentions ops) ->
  let w := run ty ops empty_world in
  (kind (get_db w d) = DB_SUBSET -> subset_of w d (up (get_db w d))) ->
  step ty w (Subset d sel true) = (w', Ret true) ->
  shows w' (length (dbs w)) = filter (fun kv => selected sel (fst kv)) (shows w d).
Proof.
  intros G St w Kn E. pose proof (exact_names _ _ St) as EX. pose proof (reach_names ops _ (incl_refl _)) as W. fold w in W.
  assert (C : coherent w).
  { apply (coh_run ty _ EX); auto. apply wf_empty. apply coh_empty. now apply names_in_all. }
  assert (L : live w d = true) by (cbn [step] in E; destruct (live w d); congruence).
  edestruct (deep_subset ty _ EX w d sel w') as (_ & _ & _ & _ & H & _); eauto.
  intros t Ht. unfold top_of in Ht. destruct (kind (get_db w d)) eqn:K; cbn [is_subset] in Ht.
  - left. congruence.
  - left. congruence.
  - right. destruct (alive (get_db w (up (get_db w d)))); [|discriminate]. inversion Ht; subst t. now apply Kn.
Qed.
Lemma deep_copy_isolated (ops ops2 : list op) d sel w' : 
  let w := run ty ops empty_world in
  step ty w (Subset d sel true) = (w', Ret true) ->
  let s := length (dbs w) in
  (forall e, (e < s)%nat -> shows w' e = shows w e /\ family w' e = family w e) /\
  (forall e, (e < s)%nat -> family w' e <> family w' s) /\
  (forall e, (e <= s)%nat -> avoids ty e w' ops2 -> shows (run ty ops2 w') e = shows w' e).
Proof.
  intros w E s. pose proof (reach_any ops) as W. fold w in W.
  assert (St := step_ok ty anything w (Subset d sel true) W ltac:(intros n [])).
  cbn [step] in E, St. destruct (live w d) eqn:L; [|discriminate]. unfold get_subset in E, St.
  destruct (filter_names (get_db w d) sel) as [names| |] eqn:Fn; try discriminate.
  destruct (top_of w d) as [t|] eqn:Ht; try discriminate.
  pose proof (top_facts _ _ _ _ _ W L Ht) as (At & Kt & Ft & _).
  assert (Hn : forall n, In n names -> check_name n ty = Ok tt /\ key_of ty n = n /\ anything n).
  { intros n Hn. eapply key_facts; eauto. eapply filter_names_keys; eauto. }
  change (create w DB_STANDALONE 0) with (fst (create w DB_STANDALONE 0), length (dbs w)) in E, St. cbn iota zeta beta in E, St.
  destruct (deep_ok ty anything w t names W At Kt Hn) as (A & (l & B) & C & D & K).
  destruct (deep_copy ty (fst (create w DB_STANDALONE 0)) (length (dbs w)) t names) as [w2 r].
  destruct r as [[]|]; try discriminate. inversion E; subst w2. clear E. cbn [fst] in *. destruct St as (W' & Ko & Le).
  assert (Fs : family w' s = s) by (unfold family, s; now rewrite K).
  assert (Same : forall e, (e < s)%nat -> shows w' e = shows w e /\ family w' e = family w e).
  { intros e He. now apply Ko. }
  split; [auto|]. split.
  - intros e He. rewrite Fs. destruct (Same e He) as [_ ->]. unfold family.
    destruct (is_subset (kind (get_db w e))) eqn:Ke; [|lia].
    assert (K' : kind (get_db w e) = DB_SUBSET) by (destruct (kind (get_db w e)); auto; discriminate).
    destruct (wf_up _ _ _ W e K') as [_ Hu]. unfold s in *. lia.
  - intros e He Av. apply (run_avoids ty anything ops2 w' e); auto. intros o _ n _. exact I. unfold s in *. lia.
Qed.

(** ** rename, remove, merge *)
Lemma rename_moves (ops : list op) d old new ow w' other :
  let w := run ty ops empty_world in
  steady_case ty (old :: new :: other :: mentions ops) ->
  step ty w (Rename d old new ow) = (w', Ret true) ->
  let t := family w d in
  (forall e, view w t e -> get ty w e old <> Throw ->
     get ty w' e new = get ty w t old /\ get ty w t old <> Throw /\
     (key_of ty old <> key_of ty new -> get ty w' e old = Throw)) /\
  (forall e, view w t e -> key_of ty other <> key_of ty old -> key_of ty other <> key_of ty new ->
     get ty w' e other = get ty w e other) /\
  (forall e, ~ view w t e \/ (e <> t /\ get ty w e old = Throw) -> get ty w' e other = get ty w e other) /\
  get ty w d old <> Throw /\ (ow = true \/ get ty w t new = Throw).
Proof.
  intros w St E t. set (names := old :: new :: other :: mentions ops) in *.
  pose proof (exact_names _ _ St) as EX.
  assert (I : incl (mentions ops) names) by (intros x Hx; unfold names; cbn; auto).
  pose proof (reach_names ops _ I) as W. fold w in W.
  cbn [step] in E. destruct (live w d) eqn:L; [|discriminate].
  assert (Uo : keys_of_names ty names (key_of ty old)) by (exists old; split; [cbn; auto|reflexivity]).
  assert (Un : keys_of_names ty names (key_of ty new)) by (exists new; split; [cbn; auto|reflexivity]).
  assert (Ux : keys_of_names ty names (key_of ty other)) by (exists other; split; [cbn; auto|reflexivity]).
  destruct (rename_lookup ty _ EX w d old new ow W L Uo Un) as [(r & X & Y & _)|(t' & w1 & X & W1 & Wi & Ht & X1 & X2 & X3 & X4 & X5 & Lk)].
  { rewrite X in E. inversion E. congruence. }
  rewrite X in E. inversion E; subst w1. clear E.
  pose proof (top_facts _ _ _ _ _ W L Ht) as (At & Kt & Ft & _). fold t in Ft. subst t'.
  assert (Gx : forall w0 e n, wf ty (keys_of_names ty names) w0 -> keys_of_names ty names (key_of ty n) ->
     get ty w0 e n = match lookup w0 e (key_of ty n) with Some v => Ok v | None => Throw end).
  { intros. now apply (get_exact ty _ EX). }
  assert (Sel : forall e, view w t e -> get ty w e old <> Throw ->
    Nat.eqb e t || (in_list e (kids (get_db w t)) && is_some (lookup w e (key_of ty old))) = true).
  { intros e [->|V] H; [now rewrite Nat.eqb_refl|]. unfold subset_of in V. apply in_list_iff in V. rewrite V. rewrite Gx in H by auto.
    destruct (lookup w e (key_of ty old)); [apply orb_true_r|congruence]. }
  split; [|split; [|split; [|split]]].
  - intros e V H. rewrite !Gx by auto. rewrite !Lk, (Sel e V H), str_eqb_refl. split; [auto|]. split.
    + destruct (lookup w t (key_of ty old)); [discriminate|congruence].
    + intros N. apply str_eqb_neq in N. rewrite N, str_eqb_refl. auto.
  - intros e V N1 N2. rewrite !Gx by auto. rewrite Lk. apply str_eqb_neq in N1, N2. rewrite N1, N2. now destruct (_ || _).
  - intros e V. rewrite !Gx by auto. rewrite Lk.
    assert (Nat.eqb e t || (in_list e (kids (get_db w t)) && is_some (lookup w e (key_of ty old))) = false) as ->; auto.
    apply orb_false_iff. destruct V as [V|[V1 V2]].
    + split; [apply Nat.eqb_neq; intros ->; apply V; now left|]. apply andb_false_iff. left. apply in_list_false.
      intros H. apply V. now right.
    + split; [now apply Nat.eqb_neq|]. apply andb_false_iff. right. rewrite Gx in V2 by auto.
      destruct (lookup w e (key_of ty old)); [discriminate|auto].
  - rewrite Gx by auto. destruct (lookup w d (key_of ty old)); [discriminate|congruence].
  - destruct X5 as [|X5]; auto. right. rewrite Gx by auto. now rewrite X5.
Qed.
Lemma remove_deletes (ops : list op) d name other w' b :
  let w := run ty ops empty_world in
  steady_case ty (name :: other :: mentions ops) ->
  step ty w (Remove d name) = (w', Ret b) ->
  let t := family w d in
  (b = true <-> get ty w d name <> Throw /\ get ty w t name <> Throw) /\
  (forall e, view w t e -> b = true -> get ty w' e name = Throw) /\
  (forall e, view w t e -> key_of ty other <> key_of ty name -> get ty w' e other = get ty w e other) /\
  (forall e, ~ view w t e \/ b = false -> get ty w' e other = get ty w e other).
Proof.
  intros w St E t. set (names := name :: other :: mentions ops) in *.
  pose proof (exact_names _ _ St) as EX.
  assert (I : incl (mentions ops) names) by (intros x Hx; unfold names; cbn; auto).
  pose proof (reach_names ops _ I) as W. fold w in W.
  cbn [step] in E. destruct (live w d) eqn:L; [|discriminate].
  assert (Uo : keys_of_names ty names (key_of ty name)) by (exists name; split; [cbn; auto|reflexivity]).
  assert (Ux : keys_of_names ty names (key_of ty other)) by (exists other; split; [cbn; auto|reflexivity]).
  destruct (top_of w d) as [t'|] eqn:Ht.
  2: { unfold remove in E. rewrite Ht in E. discriminate. }
  pose proof (top_facts _ _ _ _ _ W L Ht) as (At & Kt & Ft & _). fold t in Ft. subst t'.
  destruct (remove_lookup ty _ EX w d name t W L Ht Uo) as (w1 & b1 & X & W1 & Wi & Hb & Lk).
  rewrite X in E. injection E as Ew Eb. rewrite Ew, Eb in *. clear Ew Eb w1 b1 X.
  assert (Gx : forall w0 e n, wf ty (keys_of_names ty names) w0 -> keys_of_names ty names (key_of ty n) ->
     get ty w0 e n = match lookup w0 e (key_of ty n) with Some v => Ok v | None => Throw end).
  { intros. now apply (get_exact ty _ EX). }
  assert (Vf : forall e, in_family w t e = true <-> view w t e).
  { intros e. unfold in_family, view, subset_of. rewrite orb_true_iff, Nat.eqb_eq, in_list_iff. tauto. }
  split; [|split; [|split]].
  - rewrite !Gx by auto. rewrite Hb, andb_true_iff.
    destruct (lookup w d (key_of ty name)), (lookup w t (key_of ty name)); cbn; split; intros [? ?]; split; auto; try discriminate; congruence.
  - intros e V ->. rewrite Gx by auto. rewrite Lk. apply Vf in V. rewrite V, str_eqb_refl. reflexivity.
  - intros e V N. rewrite !Gx by auto. rewrite Lk. apply str_eqb_neq in N. now rewrite N, andb_false_r.
  - intros e [V|V].
    + rewrite !Gx by auto. rewrite Lk. destruct (in_family w t e) eqn:F; [apply Vf in F; contradiction|].
      now rewrite andb_false_r.
    + rewrite !Gx by auto. rewrite Lk, V. reflexivity.
Qed.
Lemma merge_shows (ops : list op) d e ow c name :
  let w := run ty ops empty_world in
  steady_case ty (name :: mentions ops) ->
  live w d = true -> live w e = true -> (kind (get_db w d) = DB_SUBSET -> live w (up (get_db w d)) = true) ->
  family w d <> family w e ->
  exists w', step ty w (Merge d e ow c) = (w', Ret true) /\
    get ty w' d name =
      match get ty w e name, get ty w d name with
      | Ok v, Ok v' => Ok (if ow then v else v')
      | Ok v, _ => Ok v
      | _, r => r
      end /\
    (c = false -> get ty w' e name = get ty w e name) /\
    (c = true -> get ty w e name <> Throw -> get ty w' e name = Throw).
Proof.
  intros w St L Le Hup NF. set (names := name :: mentions ops) in *. pose proof (exact_names _ _ St) as EX.
  assert (I : incl (mentions ops) names) by (intros x Hx; unfold names; cbn; auto).
  pose proof (reach_names ops _ I) as W. fold w in W.
  assert (Un : keys_of_names ty names (key_of ty name)) by (exists name; split; [cbn; auto|reflexivity]).
  assert (Ht : exists t, top_of w d = Some t).
  { unfold top_of. destruct (kind (get_db w d)); cbn [is_subset]; eauto. unfold live in Hup. rewrite Hup; eauto. }
  destruct Ht as [t Ht].
  destruct (merge_lookup ty _ EX w d e ow c t W L Le Ht NF) as (w1 & E & W1 & Wi & Lk).
  cbn [step]. rewrite L, Le. cbn [andb]. rewrite E. eexists. split; [reflexivity|].
  assert (Gx : forall w0 e n, wf ty (keys_of_names ty names) w0 -> keys_of_names ty names (key_of ty n) ->
     get ty w0 e n = match lookup w0 e (key_of ty n) with Some v => Ok v | None => Throw end).
  { intros. now apply (get_exact ty _ EX). }
  set (b := c && negb (is_nil (objs (get_db w e)))).
  assert (L1 : alive (get_db w1 e) = true) by (rewrite (shape_alive w w1); auto; apply Wi).
  destruct (clear_ok ty _ w1 e W1 L1) as [W2 Ko]. destruct (clear_spec ty _ w1 e W1 L1) as (Ch & _ & Cs).
  assert (Wx : wf ty (keys_of_names ty names) (if b then clear w1 e else w1)) by (destruct b; auto).
  assert (Ld : forall k, lookup (if b then clear w1 e else w1) d k = lookup w1 d k).
  { intros k. destruct b; auto. unfold lookup. rewrite Ch.
    destruct (Ko d) as [-> _]; auto. rewrite !(shape_family w w1) by apply Wi. auto. }
  assert (Lw : lookup w1 e (key_of ty name) = lookup w e (key_of ty name)) by (eapply (within_lookup ty); eauto).
  split; [|split].
  - rewrite !Gx by auto. rewrite Ld, Lk. destruct (lookup w e (key_of ty name)), (lookup w d (key_of ty name)), ow; reflexivity.
  - intros ->. unfold b. cbn [andb]. rewrite !Gx by auto. now rewrite Lw.
  - intros -> H. rewrite !Gx in * by auto.
    assert (b = true) as ->.
    { unfold b. cbn [andb]. unfold lookup in H. destruct (objs (get_db w e)); [cbn in H; congruence|reflexivity]. }
    unfold lookup at 1. destruct Cs as [[_ Cs]|[_ Cs]]; destruct (Cs e) as (_ & _ & _ & -> & _).
    + now rewrite Nat.eqb_refl.
    + unfold in_family. now rewrite Nat.eqb_refl.
Qed.

(** ** Comments, any letter case *)
Lemma comment_lookup (ops : list op) d name : ty = COMMENTS ->
  let w := run ty ops empty_world in
  (contains ty (get_db w d) name = true <-> exists k, In k (keys (objs (get_db w d))) /\ same_but_case k (trim name)) /\
  (contains ty (get_db w d) name = true ->
     exists k, In k (keys (objs (get_db w d))) /\ same_but_case k (trim name) /\
       exists v, get ty w d name = Ok v /\ lookup w d k = Some v) /\
  (contains ty (get_db w d) name = false -> get ty w d name = Throw).
Proof.
  intros Ty w. pose proof (reach_any ops) as W. fold w in W.
  assert (C : is_comments ty = true) by (rewrite Ty; reflexivity).
  assert (Ci : contains ty (get_db w d) name = true <-> exists k, In k (keys (objs (get_db w d))) /\ same_but_case k (trim name)).
  { unfold contains. rewrite C, existsb_exists. split; intros (k & A & B); exists k; split; auto.
    - apply str_eqb_iff in B. now apply (map_same _ lower_same).
    - apply str_eqb_iff. now apply (map_same _ lower_same). }
  split; [exact Ci|]. unfold get, get_obj_ptr, get_key. rewrite C. split.
  - intros H. apply Ci in H. destruct H as (k & Hk & Sk).
    destruct (fold_some_match (keys (objs (get_db w d))) (to_lower (trim name)) []) as [A B].
    { exists k. split; auto. now apply (map_same _ lower_same). }
    set (r := fold_left _ _ _) in *. exists r. split; [auto|]. split; [now apply (map_same _ lower_same)|].
    destruct (find r (objs (get_db w d))) as [p|] eqn:F; [|apply find_None in F; contradiction].
    destruct (ptr_valid ty anything w d r p W F) as [v Hv]. exists v. unfold lookup. rewrite F. split; auto.
    destruct r eqn:Er; [rewrite (find_empty ty anything) in F by auto; discriminate|]. now rewrite F, Hv.
  - intros H. destruct (fold_last_match (keys (objs (get_db w d))) (to_lower (trim name)) []) as [->|[A B]]; auto.
    exfalso. assert (X : contains ty (get_db w d) name = true); [|congruence]. apply Ci. eexists. split; eauto.
    now apply (map_same _ lower_same).
Qed.
End W.
