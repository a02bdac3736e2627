(** Subsets agree with their parent; deep copies hold the selected objects. *)
From Coq Require Import ZArith Ascii String List Bool Lia Sorted.
From Verif Require Import M_Base M_Names M_Lex S_Names L_Names M_Kdb S_Kdb L_Kdb L_Kdb2 L_Kdb3 L_Kdb4 L_Kdb5 L_Kdb6 L_Kdb7.
Import ListNotations.
Open Scope Z_scope.

Section W.
Context {T : Type}.
Variable ty : otype.
Variable U : str -> Prop.
Notation world := (world T).
Notation op := (op T).
Implicit Types w : world.
Notation wf := (wf ty U).
Hypothesis EX : exact ty U.

Definition coherent w : Prop := forall t c k p, In c (kids (get_db w t)) ->
  find k (objs (get_db w c)) = Some p -> find k (objs (get_db w t)) = Some p.

Lemma coherent_edit w w0 w' g : dbs w0 = dbs w -> edit w0 w' g ->
  (forall t c k p, In c (kids (get_db w t)) -> g c k = Some p -> g t k = Some p) -> coherent w'.
Proof.
  intros D [_ [_ S] _ F] H t c k p Hc Hp. rewrite F in *. destruct (S t) as (_ & _ & _ & K). rewrite K in Hc.
  apply (H t c k p); auto. unfold get_db in *. now rewrite D in Hc.
Qed.
Lemma dbs_same_coherent w w' : dbs w' = dbs w -> coherent w -> coherent w'.
Proof. intros D C t c k p. unfold get_db. rewrite D. apply C. Qed.

(** Databases of two families do not share subsets. *)
Lemma kid_of w t c t' : wf w -> In c (kids (get_db w t)) -> In c (kids (get_db w t')) -> t = t'.
Proof. intros W A B. apply (kid_family ty U) in A; auto. apply (kid_family ty U) in B; auto. congruence. Qed.
Lemma kid_top w t c : wf w -> In c (kids (get_db w t)) -> family w t = t /\ kind (get_db w t) <> DB_SUBSET.
Proof.
  intros W H. destruct (wf_kids _ _ _ W t c H) as (K & <- & _). destruct (wf_up _ _ _ W c K) as [X _].
  split; auto. unfold family. destruct (kind (get_db w (up (get_db w c)))); auto. congruence.
Qed.

Lemma coh_setting w v w' d t key : wf w -> coherent w -> alive (get_db w d) = true -> top_of w d = Some t ->
  key_of ty key = key -> U key -> edit (grow w v) w' (setting ty w d t key (length (heap w))) -> coherent w'.
Proof.
  intros W C L Ht Kk Uk Ed. eapply (coherent_edit w); [|exact Ed|]; auto.
  intros t' c k p Hc. destruct (kid_top w t' c W Hc) as [Ft' Kt']. unfold setting.
  destruct (str_eqb k key) eqn:Ek; rewrite ?andb_false_r, ?andb_true_r; [|apply C; auto].
  apply str_eqb_iff in Ek. subst k.
  destruct (touched ty w d t key c) eqn:Tc.
  - intros H. pose proof (touched_family ty U _ _ _ _ _ W L Ht Tc) as Fc.
    rewrite (kid_family ty U w t' c W Hc) in Fc. subst t'. unfold touched. rewrite Nat.eqb_refl, orb_true_r. auto.
  - intros H. pose proof (C t' _ _ _ Hc H) as H'. destruct (touched ty w d t key t') eqn:Tt; auto. exfalso.
    pose proof (touched_family ty U _ _ _ _ _ W L Ht Tt) as Ft. rewrite Ft' in Ft. subst t'.
    unfold touched in Tc. apply orb_false_iff in Tc. destruct Tc as [_ Tc]. apply in_list_iff in Hc. rewrite Hc in Tc.
    cbn [andb] in Tc. rewrite (contains_exact ty U) in Tc by (auto; now rewrite Kk). rewrite Kk, H in Tc. discriminate.
Qed.
Lemma coh_set_obj_ptr w d name p : wf w -> coherent w -> alive (get_db w d) = true -> U (key_of ty name) ->
  coherent (fst (set_obj_ptr ty w d name p)).
Proof.
  intros W C L Uk. destruct (set_obj_ptr_cases ty U w d name p W L ltac:(auto))
    as [(w' & -> & D & _ & _ & _)|[(t & -> & _)|(t & v & w' & -> & Ht & Ck & _ & E & W')]]; cbn [fst]; auto.
  - exact (dbs_same_coherent w w' D C).
  - exact (coh_setting _ _ _ _ _ _ W C L Ht (key_idem _ _) Uk E).
Qed.
Lemma coh_set w d name v : wf w -> coherent w -> alive (get_db w d) = true -> U (key_of ty name) ->
  coherent (fst (set ty w d name v)).
Proof. intros W C L Uk. unfold set. cbn [alloc]. apply (coh_set_obj_ptr (grow w v)); auto using wf_grow. Qed.
Lemma coh_add w d name v : wf w -> coherent w -> alive (get_db w d) = true -> U (key_of ty name) ->
  coherent (fst (add ty w d name v)).
Proof.
  intros W C L Uk. unfold add. destruct (check_key ty name) as [Ck|Ck]; rewrite Ck; auto.
  destruct (contains _ _ _); auto. destruct (parent_contains _ _ _ _); auto. cbn [alloc]. fold (grow w v).
  destruct (set_no_check_ok ty U w d (key_of ty name) v W L Ck (key_idem _ _) Uk) as [[_ ->]|(t & w' & Ht & -> & E & _)]; cbn [fst].
  - exact C.
  - exact (coh_setting _ _ _ _ _ _ W C L Ht (key_idem _ _) Uk E).
Qed.
Lemma coh_update w d name v : wf w -> coherent w -> alive (get_db w d) = true -> U (key_of ty name) ->
  coherent (fst (update ty w d name v)).
Proof. intros W C L Uk. unfold update. destruct (contains _ _ _); auto. apply coh_set; auto. now rewrite key_idem. Qed.
Lemma coh_remove w d name : wf w -> coherent w -> alive (get_db w d) = true -> coherent (fst (remove ty w d name)).
Proof.
  intros W C L. destruct (remove_cases ty U w d name W L) as [[-> _]|[(t & -> & _)|(t & w' & -> & Ht & _ & _ & E)]]; auto.
  cbn [fst]. eapply (coherent_edit w); [reflexivity|exact E|]. cbn beta. intros t' c k p Hc.
  destruct (kid_top w t' c W Hc) as [Ft' Kt'].
  assert (S : in_family w t t' = true -> in_family w t c = true).
  { intros H. pose proof (in_family_family ty U _ _ _ _ W L Ht H) as X. rewrite Ft' in X. subst t'.
    unfold in_family. apply in_list_iff in Hc. rewrite Hc. apply orb_true_r. }
  destruct (in_family w t c); cbn [andb].
  - destruct (str_eqb k (key_of ty name)); [discriminate|]. rewrite andb_false_r. apply C; auto.
  - intros H. destruct (in_family w t t'); [specialize (S eq_refl); discriminate|]. cbn [andb]. eapply C; eauto.
Qed.
Lemma coh_rename w d a b : wf w -> coherent w -> alive (get_db w d) = true -> U (key_of ty a) -> U (key_of ty b) ->
  coherent (fst (rename ty w d a b false)).
Proof.
  intros W C L Ua Ub. destruct (rename_cases ty U w d a b false W L) as [(r & -> & _)|(t & w' & p & -> & Ht & Cn & Cd & Cow & Gp & E)]; auto.
  cbn [fst]. destruct Cow as [|Cow]; [discriminate|].
  eapply (coherent_edit w); [reflexivity|exact E|]. intros t' c k q Hc. destruct (kid_top w t' c W Hc) as [Ft' Kt'].
  rewrite (contains_exact ty U) in Cow by (auto; now rewrite key_idem). rewrite key_idem in Cow.
  unfold moving. rewrite (contains_exact ty U EX w c) by (auto; now rewrite key_idem). rewrite key_idem.
  destruct (Nat.eqb t' t) eqn:Et.
  - apply Nat.eqb_eq in Et. subst t'. cbn [orb].
    assert (Nat.eqb c t = false) as ->.
    { apply Nat.eqb_neq. eapply kid_neq; eauto. }
    assert (in_list c (kids (get_db w t)) = true) as -> by now apply in_list_iff. cbn [orb andb].
    destruct (find (key_of ty a) (objs (get_db w c))) as [x|] eqn:Fa; cbn [is_some].
    + destruct (str_eqb k (key_of ty b)); auto. destruct (str_eqb k (key_of ty a)); [discriminate|]. apply C; auto.
    + intros H. pose proof (C _ _ _ _ Hc H) as H'. destruct (str_eqb k (key_of ty b)) eqn:Ek.
      * apply str_eqb_iff in Ek. subst k. rewrite H' in Cow. discriminate.
      * destruct (str_eqb k (key_of ty a)) eqn:Ek'; auto. apply str_eqb_iff in Ek'. subst k. congruence.
  - apply Nat.eqb_neq in Et. cbn [orb].
    assert (Nk : in_list t' (kids (get_db w t)) = false).
    { apply in_list_false. intros X. destruct (wf_kids _ _ _ W t t' X) as (K & _). contradiction. }
    rewrite Nk. cbn [andb].
    assert (in_list c (kids (get_db w t)) = false) as ->.
    { apply in_list_false. intros X. apply Et. eapply kid_of; eauto. }
    cbn [andb]. rewrite orb_false_r. destruct (Nat.eqb c t) eqn:Ec; [|apply C; auto].
    exfalso. apply Nat.eqb_eq in Ec. subst c. destruct (wf_kids _ _ _ W t' t Hc) as (K & _).
    pose proof (top_facts _ _ _ _ _ W L Ht) as (_ & Kt & _). contradiction.
Qed.
Lemma coh_copy w d e a b : wf w -> coherent w -> alive (get_db w d) = true -> U (key_of ty b) ->
  coherent (fst (copy_obj_from ty w d e a b)).
Proof. intros W C L Ub. unfold copy_obj_from. destruct (get_obj_ptr _ _ _); auto. apply coh_set_obj_ptr; auto. Qed.
Lemma coh_each d l (f : world -> str -> world * out) : forall w, wf w -> coherent w -> alive (get_db w d) = true ->
  (forall w' x, In x l -> wf w' -> alive (get_db w' d) = true -> ok_within ty U w' d (f w' x)) ->
  (forall w' x, In x l -> wf w' -> coherent w' -> alive (get_db w' d) = true -> coherent (fst (f w' x))) ->
  coherent (fst (each l f w)).
Proof.
  induction l as [|x l IH]; intros w W C L H1 H2; cbn [each]; auto.
  destruct (H1 w x ltac:(now left) W L) as [A B]. pose proof (H2 w x ltac:(now left) W C L) as C'.
  destruct (f w x) as [w1 [r|]]; cbn [fst] in *; auto. apply IH; auto.
  - rewrite (shape_alive w w1); auto. apply B.
  - intros w' y Hy. apply H1. now right.
  - intros w' y Hy. apply H2. now right.
Qed.
Lemma coh_merge_body d e ow w n : wf w -> coherent w -> alive (get_db w d) = true -> U (key_of ty n) ->
  coherent (fst (merge_body ty d e ow w n)).
Proof.
  intros W C L Un. unfold merge_body. destruct (contains _ _ _); auto. destruct (contains _ _ _).
  - destruct ow; auto. pose proof (coh_remove w d n W C L) as C1. destruct (remove_ok ty U w d n W L) as [A B].
    destruct (remove ty w d n) as [w1 [r|]]; cbn [fst] in *; auto. apply coh_copy; auto.
    rewrite (shape_alive w w1); auto. apply B.
  - apply coh_copy; auto.
Qed.
Lemma coh_clear w d : wf w -> coherent w -> alive (get_db w d) = true -> coherent (clear w d).
Proof.
  intros W C L. destruct (clear_spec ty U w d W L) as (_ & _ & [[K H]|[K H]]).
  - intros t c k p Hc. destruct (H t) as (_ & _ & _ & Ot & Kt). destruct (H c) as (_ & _ & _ & Oc & _).
    rewrite Kt in Hc. apply filter_In in Hc. destruct Hc as [Hc Nc]. apply negb_true_iff in Nc.
    rewrite Oc, Ot, Nc. intros F. destruct (Nat.eqb t d) eqn:Et.
    + apply Nat.eqb_eq in Et. subst t. destruct (kid_top w d c W Hc). contradiction.
    + eapply C; eauto.
  - intros t c k p Hc. destruct (H t) as (_ & _ & _ & Ot & Kt). destruct (H c) as (_ & _ & _ & Oc & _).
    rewrite Kt in Hc. destruct (Nat.eqb t d) eqn:Et; [contradiction|]. rewrite Oc, Ot.
    destruct (in_family w d c); [discriminate|]. intros F. apply Nat.eqb_neq in Et.
    assert (in_family w d t = false) as ->.
    { unfold in_family. apply Nat.eqb_neq in Et. rewrite Et. cbn [orb]. apply in_list_false. intros X.
      destruct (wf_kids _ _ _ W d t X) as (K' & _). destruct (kid_top w t c W Hc). contradiction. }
    eapply C; eauto.
Qed.

Lemma coh_step w o : wf w -> coherent w -> gentle o -> names_in ty U o -> coherent (fst (step ty w o)).
Proof.
  intros W C G N. destruct o as [|d n v|d n p|d n v|d n v|d n|d a b ow|d e ow c|d e a b|d sel c|d|d|p v]; cbn [step fst gentle] in *;
   try (destruct (live w d) eqn:L; [|now auto]).
  - intros t c k p. rewrite !get_create. destruct (Nat.eqb t (length (dbs w))) eqn:Et; [intros []|].
    intros Hc. pose proof (kids_lt _ _ _ _ _ W Hc) as Hl. destruct (Nat.eqb c (length (dbs w))) eqn:Ec; [discriminate|]. eapply C; eauto.
  - apply coh_set; auto. apply N. now left.
  - apply coh_set_obj_ptr; auto. apply N. now left.
  - apply coh_add; auto. apply N. now left.
  - apply coh_update; auto. apply N. now left.
  - apply coh_remove; auto.
  - subst ow. apply coh_rename; auto; apply N; cbn; auto.
  - destruct (live w e) eqn:Le; cbn [andb]; auto. unfold merge. fold (@merge_body T ty d e ow).
    destruct (objs (get_db w e)) as [|kv rest] eqn:E; auto.
    assert (Un : forall x, In x (keys (kv :: rest)) -> U (key_of ty x)).
    { intros x Hx. rewrite <- E in Hx. destruct (key_facts ty U _ _ _ W Hx) as (_ & -> & ?). auto. }
    destruct (each_ok ty U d (keys (kv :: rest)) (merge_body ty d e ow) w W L) as [A B].
    { intros w' x Hx W' L' _. apply merge_body_ok; auto. }
    assert (C1 : coherent (fst (each (keys (kv :: rest)) (merge_body ty d e ow) w))).
    { apply (coh_each d); auto.
      - intros w' x Hx W' L'. apply merge_body_ok; auto.
      - intros w' x Hx W' C' L'. apply coh_merge_body; auto. }
    destruct (each _ _ _) as [w1 [r|]]; cbn [fst] in *; auto. destruct c; auto. apply coh_clear; auto.
    rewrite (shape_alive w w1); auto. apply B.
  - destruct (live w e) eqn:Le; cbn [andb]; auto. unfold duplicate. destruct (_ && _); auto. destruct (negb _); auto.
    assert (Ub : U (key_of ty (key_of ty b))) by (rewrite key_idem; apply N; cbn; auto).
    destruct (contains ty (get_db w d) b).
    + pose proof (coh_remove w d (key_of ty b) W C L) as C1. destruct (remove_ok ty U w d (key_of ty b) W L) as [A B].
      destruct (remove ty w d (key_of ty b)) as [w1 [r|]]; cbn [fst] in *; auto. destruct (negb _); auto.
      apply coh_copy; auto. rewrite (shape_alive w w1); auto. apply B.
    + destruct (negb _); auto. apply coh_copy; auto.
  - unfold get_subset.
    destruct (filter_names (get_db w d) sel) as [names| |] eqn:Fn; auto.
    destruct (top_of w d) as [t|] eqn:Ht; auto.
    pose proof (top_facts _ _ _ _ _ W L Ht) as (At & Kt & _).
    assert (Hn : forall n, In n names -> check_name n ty = Ok tt /\ key_of ty n = n /\ U n).
    { intros n Hn. eapply key_facts; eauto. eapply filter_names_keys; eauto. }
    destruct c.
    + change (create w DB_STANDALONE 0) with (fst (create w DB_STANDALONE 0), length (dbs w)). cbn iota zeta beta.
      set (w1 := fst (create w DB_STANDALONE 0)). set (s := length (dbs w)).
      destruct (create_ok ty U w DB_STANDALONE 0 W ltac:(discriminate)) as [W1 _]. fold w1 in W1.
      assert (C1 : coherent w1).
      { intros x c k p. unfold w1. rewrite !get_create. destruct (Nat.eqb x (length (dbs w))) eqn:Et; [intros []|].
        intros Hc. pose proof (kids_lt _ _ _ _ _ W Hc) as Hl. destruct (Nat.eqb c (length (dbs w))) eqn:Ec; [discriminate|]. eapply C; eauto. }
      assert (As : alive (get_db w1 s) = true) by (unfold w1; rewrite get_create; unfold s; now rewrite Nat.eqb_refl).
      unfold deep_copy.
      match goal with |- context[each names ?f w1] => set (g := f) end.
      assert (C2 : coherent (fst (each names g w1))).
      { apply (coh_each s); auto; unfold g.
        - intros w' x Hx W' L'. destruct (contains _ _ _); [|split; auto; apply within_refl].
          apply copy_obj_from_ok; auto. intros _. destruct (Hn x Hx) as (_ & -> & ?). auto.
        - intros w' x Hx W' C' L'. destruct (contains _ _ _); auto. apply coh_copy; auto.
          destruct (Hn x Hx) as (_ & -> & ?). auto. }
      destruct (each names g w1) as [w2 [r|]]; cbn [fst] in *; [|exact (dbs_same_coherent w (mkW (heap w2) (dbs w)) eq_refl C)].
      destruct (forallb _ names); cbn [fst]; auto.
    + change (create w DB_SUBSET t) with (fst (create w DB_SUBSET t), length (dbs w)). cbn iota zeta beta.
      pose proof (shallow_ok ty U w t names W At Kt Hn) as Sh. cbn zeta in Sh.
      destruct (shallow_copy ty (fst (create w DB_SUBSET t)) (length (dbs w)) t names) as [w2 []]; auto.
      destruct (Sh w2 eq_refl) as (A & B & Ll & D & Ks & Hk & Hu & F1 & F2). cbn [fst].
      set (w3 := upd_db w2 t _) in *.
      intros x c k p Hc. destruct (Nat.lt_ge_cases x (length (dbs w))) as [Lx|Lx].
      * destruct (D x Lx) as (Ox & _ & Kx). rewrite Kx in Hc. rewrite Ox.
        assert (Cs : c = length (dbs w) /\ x = t \/ In c (kids (get_db w x))).
        { destruct (Nat.eqb x t) eqn:Ext; auto. apply Nat.eqb_eq in Ext. subst x. apply in_app_or in Hc.
          destruct Hc as [Hc|[Hc|[]]]; auto. }
        destruct Cs as [[-> ->]|Hc'].
        -- intros F. destruct (in_dec str_dec k names) as [I|I]; [|rewrite F2 in F by auto; discriminate].
           destruct (F1 k I) as (q & G1 & G2). assert (q = p) by congruence. subst q.
           destruct (Hn k I) as (_ & Kk & Uk).
           rewrite (get_obj_ptr_exact ty U) in G1 by (auto; now rewrite Kk). rewrite Kk in G1.
           destruct (find k (objs (get_db w t))); congruence.
        -- pose proof (kids_lt _ _ _ _ _ W Hc') as Hl. destruct (D c Hl) as (Oc & _). rewrite Oc. eapply C; eauto.
      * exfalso. destruct (Nat.eq_dec x (length (dbs w))) as [->|Nx]; [rewrite Ks in Hc; contradiction|].
        rewrite (get_out w3 x) in Hc by lia. destruct Hc.
  - apply coh_clear; auto.
  - cbn [fst]. unfold drop. destruct (_ && existsb _ _); auto.
    pose proof (coh_clear w d W C L) as C1. destruct (clear_spec ty U w d W L) as (_ & Cl & _).
    pose proof (live_lt _ _ L) as Ld. intros t c k p. rewrite !get_upd by lia.
    destruct (Nat.eqb t d) eqn:Et; destruct (Nat.eqb c d) eqn:Ec;
      try (apply Nat.eqb_eq in Et; subst t); try (apply Nat.eqb_eq in Ec; subst c); cbn [kids objs]; apply C1.
  - exact C.
Qed.
Lemma coh_run ops : forall w, wf w -> coherent w -> Forall gentle ops -> (forall o, In o ops -> names_in ty U o) ->
  coherent (run ty ops w).
Proof.
  induction ops as [|o ops IH]; intros w W C G N; auto. inversion G; subst. rewrite run_cons. apply IH; auto.
  - apply step_ok; auto. apply N. now left.
  - apply coh_step; auto. apply N. now left.
  - intros o' H. apply N. now right.
Qed.
Lemma coh_empty : coherent (@empty_world T).
Proof. intros t c k p. rewrite get_out by (cbn; lia). intros []. Qed.

(** Deep copies. *)
Lemma deep_loop s t names : forall w, wf w -> alive (get_db w s) = true -> kind (get_db w s) = DB_STANDALONE ->
  family w t <> s -> (forall n, In n names -> check_name n ty = Ok tt /\ key_of ty n = n /\ U n /\ lookup w t n <> None) ->
  exists w', each names (fun w n => if contains ty (get_db w t) n then copy_obj_from ty w s t n n else (w, Ret false)) w = (w', Ret true) /\
    wf w' /\ within s w w' /\
    forall k, lookup w' s k = if mem k names then lookup w t k else lookup w s k.
Proof.
  induction names as [|n names IH]; intros w W L K Nf Hn; cbn [each].
  - exists w. split; [auto|]. split; [auto|]. split; [apply within_refl|auto].
  - destruct (Hn n ltac:(now left)) as (Ck & Kn & Un & Ln). destruct (lookup w t n) as [v|] eqn:Lv; [|congruence].
    rewrite (contains_exact ty U) by (auto; now rewrite Kn). rewrite Kn.
    assert (is_some (find n (objs (get_db w t))) = true) as ->.
    { rewrite <- (is_some_lookup ty U) by auto. now rewrite Lv. }
    assert (Fs : family w s = s) by (unfold family; now rewrite K).
    destruct (copy_lookup ty U EX w s t n n s v) as (w1 & E1 & W1 & Wi1 & Lk1); auto; try (now rewrite Kn); try congruence.
    { unfold top_of. now rewrite K. }
    rewrite E1. rewrite Fs in Wi1. assert (S1 : shape w w1) by apply Wi1.
    assert (Lt : forall k, lookup w1 t k = lookup w t k) by (intros k; eapply (within_lookup ty U); eauto).
    destruct (IH w1) as (w2 & E2 & W2 & Wi2 & Lk2); auto.
    { rewrite (shape_alive w w1); auto. }
    { destruct S1 as [_ S1]. destruct (S1 s) as (-> & _). auto. }
    { rewrite (shape_family w w1); auto. }
    { intros x Hx. destruct (Hn x ltac:(now right)) as (A & B & D & E). rewrite Lt. auto. }
    exists w2. split; [auto|]. split; [auto|]. split; [eapply within_trans; eauto|].
    intros k. rewrite Lk2, Lt, Lk1. cbn [mem]. rewrite Kn. unfold touched. rewrite Nat.eqb_refl. cbn [orb andb].
    destruct (str_eqb k n) eqn:Ek; cbn [orb]; auto. apply str_eqb_iff in Ek. subst k. destruct (mem n names); congruence.
Qed.

Definition values w (m : smap nat) : smap (option T) := map (fun '(k, p) => (k, nth_error (heap w) p)) m.
Lemma shows_values w d : shows w d = values w (objs (get_db w d)).
Proof. reflexivity. Qed.
Lemma keys_values w m : keys (values w m) = keys m.
Proof. unfold keys, values. rewrite map_map. apply map_ext. now intros []. Qed.
Lemma find_values w m k : find k (values w m) = match find k m with Some p => Some (nth_error (heap w) p) | None => None end.
Proof. induction m as [|[k' p] m IH]; cbn; auto. destruct (str_eqb k k'); auto. Qed.
Lemma keys_filter {A} (f : str -> bool) (m : smap A) : keys (filter (fun kv => f (fst kv)) m) = filter f (keys m).
Proof. unfold keys. induction m as [|[k p] m IH]; cbn; auto. destruct (f k); cbn; now rewrite IH. Qed.
Lemma sorted_filter {A} (f : str -> bool) (m : smap A) : sorted m -> sorted (filter (fun kv => f (fst kv)) m).
Proof.
  unfold sorted. rewrite keys_filter. induction (keys m) as [|k l IH]; cbn; intros H; [constructor|].
  inversion H as [|? ? H1 H2]; subst. destruct (f k); auto. constructor; auto. rewrite Forall_forall in *.
  intros x Hx. apply filter_In in Hx. apply H2, Hx.
Qed.
Lemma find_filter {A} (f : str -> bool) (m : smap A) k : sorted m ->
  find k (filter (fun kv => f (fst kv)) m) = if f k then find k m else None.
Proof.
  induction m as [|[k' p] m IH]; intros S; cbn; [now destruct (f k)|].
  assert (S' : sorted m) by (unfold sorted in *; cbn in S; now inversion S). specialize (IH S').
  destruct (f k') eqn:F; cbn; destruct (str_eqb k k') eqn:E; auto.
  - apply str_eqb_iff in E. subst. now rewrite F.
  - rewrite IH. apply str_eqb_iff in E. subst. now rewrite F.
Qed.
Lemma shows_lookup w w' d d' (f : str -> bool) : wf w -> wf w' ->
  (forall k, lookup w' d' k = if f k then lookup w d k else None) ->
  shows w' d' = filter (fun kv : str * option T => f (fst kv)) (shows w d).
Proof.
  intros W W' H. rewrite !shows_values. apply find_ext.
  - unfold sorted. rewrite keys_values. eapply wf_sorted; eauto.
  - apply sorted_filter. unfold sorted. rewrite keys_values. eapply wf_sorted; eauto.
  - intros k. rewrite find_filter by (unfold sorted; rewrite keys_values; eapply wf_sorted; eauto).
    rewrite !find_values. specialize (H k). unfold lookup in H.
    destruct (find k (objs (get_db w' d'))) as [p|] eqn:F1; destruct (f k); auto.
    + destruct (ptr_valid ty U _ _ _ _ W' F1) as [v Hv]. destruct (find k (objs (get_db w d))); congruence.
    + destruct (ptr_valid ty U _ _ _ _ W' F1) as [v Hv]. congruence.
    + destruct (find k (objs (get_db w d))) as [p|] eqn:F2; auto.
      destruct (ptr_valid ty U _ _ _ _ W F2) as [v Hv]. congruence.
Qed.
Lemma filter_names_mem b sel l k : filter_names b sel = Ok l -> mem k l = selected sel k && is_some (find k (objs b)).
Proof.
  assert (M : mem k (keys (objs b)) = is_some (find k (objs b))).
  { destruct (find k (objs b)) as [p|] eqn:F; cbn [is_some].
    - apply mem_In. apply find_In in F. change k with (fst (k, p)). now apply in_map.
    - destruct (mem k (keys (objs b))) eqn:M; auto. apply mem_In in M. apply find_None in F. contradiction. }
  destruct sel as [| |f]; cbn [filter_names selected].
  - intros H. now inversion H.
  - intros H. inversion H. exact M.
  - intros H. assert (l = filter f (keys (objs b))) as -> by (destruct (filter f (keys (objs b))); congruence).
    rewrite <- M. destruct (mem k (filter f (keys (objs b)))) eqn:E.
    + apply mem_In in E. apply filter_In in E. destruct E as [E1 E2]. apply mem_In in E1. now rewrite E1, E2.
    + symmetry. apply andb_false_iff. destruct (f k) eqn:Fk; auto. right.
      destruct (mem k (keys (objs b))) eqn:E2; auto. apply mem_In in E2.
      assert (In k (filter f (keys (objs b)))) as X by now apply filter_In. apply mem_In in X. congruence.
Qed.
Lemma deep_subset w d sel w' : wf w -> coherent w -> live w d = true ->
  step ty w (Subset d sel true) = (w', Ret true) ->
  (forall t, top_of w d = Some t -> d = t \/ In d (kids (get_db w t))) ->
  let s := length (dbs w) in
  wf w' /\ family w' s = s /\ live w' s = true /\ length (dbs w') = S (length (dbs w)) /\
  shows w' s = filter (fun kv : str * option T => selected sel (fst kv)) (shows w d) /\
  forall e, (e < length (dbs w))%nat -> shows w' e = shows w e /\ family w' e = family w e /\ family w e <> s.
Proof.
  intros W C L E Known s.
  assert (St := step_ok ty U w (Subset d sel true) W ltac:(intros n [])). rewrite E in St. cbn [fst] in St.
  destruct St as (W' & Ko & _). cbn [step] in E. rewrite L in E. unfold get_subset in E.
  destruct (filter_names (get_db w d) sel) as [names| |] eqn:Fn; try discriminate.
  destruct (top_of w d) as [t|] eqn:Ht; try discriminate.
  pose proof (top_facts _ _ _ _ _ W L Ht) as (At & Kt & Ft & _).
  change (create w DB_STANDALONE 0) with (fst (create w DB_STANDALONE 0), length (dbs w)) in E. cbn iota zeta beta in E.
  set (w1 := fst (create w DB_STANDALONE 0)) in *. fold s in E.
  destruct (create_ok ty U w DB_STANDALONE 0 W ltac:(discriminate)) as [W1 Sm]. fold w1 in W1, Sm.
  assert (Gs : get_db w1 s = mkDb DB_STANDALONE true 0 [] []) by (unfold w1; rewrite get_create; unfold s; now rewrite Nat.eqb_refl).
  assert (Lt : (t < s)%nat) by (unfold s; now apply live_lt).
  assert (Ld : (d < s)%nat) by (unfold s; now apply live_lt).
  assert (Fam : forall e, (e < length (dbs w))%nat -> family w e <> s).
  { intros e He. unfold family. destruct (is_subset (kind (get_db w e))) eqn:K; [|unfold s; lia].
    assert (K' : kind (get_db w e) = DB_SUBSET) by (destruct (kind (get_db w e)); auto; discriminate).
    destruct (wf_up _ _ _ W e K') as [_ Hu]. unfold s. lia. }
  assert (Lk0 : forall e k, (e < s)%nat -> lookup w1 e k = lookup w e k).
  { intros e k He. unfold lookup. destruct (Sm e ltac:(unfold s in *; lia)) as [-> _]. reflexivity. }
  assert (Coh : forall k, lookup w d k <> None -> lookup w t k = lookup w d k).
  { intros k Hk. destruct (Known t eq_refl) as [->|Kd]; auto. unfold lookup in *.
    destruct (find k (objs (get_db w d))) as [p|] eqn:F; [|congruence]. now rewrite (C t d k p Kd F). }
  destruct (deep_loop s t names w1) as (w2 & E2 & W2 & Wi2 & Lk2); auto.
  { now rewrite Gs. }
  { now rewrite Gs. }
  { destruct (Sm t ltac:(unfold s in *; lia)) as [_ ->]. apply Fam. unfold s in *; lia. }
  { intros n Hn. pose proof (filter_names_keys _ _ _ Fn _ Hn) as Hk. destruct (key_facts ty U w d n W Hk) as (A & B & D).
    split; [auto|]. split; [auto|]. split; [auto|]. rewrite Lk0 by auto.
    assert (lookup w d n <> None).
    { intros X. pose proof (is_some_lookup ty U w d n W) as Y. rewrite X in Y. cbn in Y.
      destruct (find n (objs (get_db w d))) eqn:F; [discriminate|]. apply find_None in F. contradiction. }
    rewrite Coh; auto. }
  unfold deep_copy in E. rewrite E2 in E.
  destruct (forallb _ _); [|discriminate]. inversion E; subst w2. clear E.
  assert (Fs : family w' s = s).
  { rewrite (shape_family w1 w') by apply Wi2. unfold family. now rewrite Gs. }
  split; [auto|]. split; [auto|]. split.
  { unfold live. rewrite (shape_alive w1 w') by apply Wi2. now rewrite Gs. }
  split. { destruct Wi2 as (_ & [-> _] & _). unfold w1. cbn. rewrite app_length. cbn. lia. }
  split.
  - apply shows_lookup; auto. intros k. rewrite Lk2, Lk0 by auto.
    rewrite (filter_names_mem _ _ _ k Fn). rewrite <- (is_some_lookup ty U) by auto.
    assert (lookup w1 s k = None) as -> by (unfold lookup; now rewrite Gs).
    destruct (selected sel k); cbn [andb]; auto. destruct (lookup w d k) as [v|] eqn:Lv; cbn [is_some]; auto.
    rewrite Coh; congruence.
  - intros e He. destruct (Ko e He) as [A B]; [intros x []|]. split; [auto|]. split; [auto|]. auto.
Qed.
End W.
