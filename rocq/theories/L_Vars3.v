(** The invariant of variables databases: calls that keep the set of databases. *)
From Coq Require Import ZArith Ascii String List Bool Lia.
From Verif Require Import M_Base M_Time M_Names M_Lex M_Compile M_Bytes M_Exec M_Kdb M_Vars S_Kdb S_Vars
  L_Names L_Kdb L_Kdb2 L_Kdb3 L_Kdb4 L_Kdb5 L_Kdb6 L_Kdb7 L_Kdb8 L_Vars L_Vars2.
Import ListNotations.
Open Scope Z_scope.
Local Arguments Z.add : simpl never.
Local Arguments Z.sub : simpl never.

Section L.
Variable A : arith.
Variable tiny : F A.
Notation variable := (list (F A)).
Notation world := (world (list (F A))).
Notation vworld := (vworld A).
Notation any := (fun _ : str => True).
Notation wfv := (wf VARIABLES any).
Notation len v := (Z.of_nat (length v)).
Implicit Types b : world.

Lemma exactv : exact VARIABLES any.
Proof. intros H. discriminate. Qed.
Hint Resolve exactv : core.

Definition samp (ss : list (option sample)) (d : nat) : option sample := nth d ss None.
Record binv (ss : list (option sample)) b : Prop := {
  i_wf : wfv b;
  i_coh : coherent b;
  i_len : length ss = length (dbs b);
  i_sub : forall e, alive (get_db b e) = true -> kind (get_db b e) = DB_SUBSET ->
     In e (kids (get_db b (up (get_db b e)))) /\ samp ss e = samp ss (up (get_db b e));
  i_real : forall d s, samp ss d = Some s -> real_sample s;
  i_inj : forall e k1 k2 p, alive (get_db b e) = true -> find k1 (objs (get_db b e)) = Some p ->
     find k2 (objs (get_db b e)) = Some p -> k1 = k2;
  i_sized : forall e k p, alive (get_db b e) = true -> find k (objs (get_db b e)) = Some p ->
     exists v, nth_error (heap b) p = Some v /\ len v = nb_of (samp ss (family b e)) }.

(** Objects are kept in the heap, with the same number of values. *)
Definition hext b b' : Prop := forall p v, nth_error (heap b) p = Some v ->
  exists v', nth_error (heap b') p = Some v' /\ length v' = length v.
Lemma hext_refl b : hext b b.
Proof. intros p v H. eauto. Qed.
Lemma hext_trans b1 b2 b3 : hext b1 b2 -> hext b2 b3 -> hext b1 b3.
Proof. intros H1 H2 p v H. destruct (H1 p v H) as (v1 & X & Y). destruct (H2 p v1 X) as (v2 & X2 & Y2). exists v2. split; congruence. Qed.
Lemma hext_grow b b' l : heap b' = heap b ++ l -> hext b b'.
Proof. intros E p v H. exists v. rewrite E. rewrite nth_error_app1; auto. apply nth_error_Some. congruence. Qed.
Hint Resolve hext_refl : core.

Definition good ss b (r : world * vout) : Prop :=
  binv ss (fst r) /\ shape b (fst r) /\ hext b (fst r) /\ snd r <> VUndef.
Lemma good_same ss b r : binv ss b -> r <> VUndef -> good ss b (b, r).
Proof. intros I N. split; [auto|]. split; [apply shape_refl|]. split; auto. Qed.
Lemma good_trans ss b b1 r : shape b b1 -> hext b b1 -> good ss b1 r -> good ss b r.
Proof. intros S H (I & S1 & H1 & N). split; [auto|]. split; [eapply shape_trans; eauto|]. split; auto. eapply hext_trans; eauto. Qed.

(** Databases of a family have one sample. *)
Lemma samp_family ss b d : binv ss b -> alive (get_db b d) = true -> samp ss d = samp ss (family b d).
Proof.
  intros I L. unfold family. destruct (kind (get_db b d)) eqn:K; cbn [is_subset]; auto. now apply (i_sub _ _ I).
Qed.

(** A change of the names, the heap being unchanged or extended. *)
Lemma binv_edit ss b w0 b' g l : binv ss b -> dbs w0 = dbs b -> heap w0 = heap b ++ l -> edit w0 b' g ->
  wfv b' -> coherent b' ->
  (forall e k q, alive (get_db b e) = true -> g e k = Some q ->
     (exists e0 k0, alive (get_db b e0) = true /\ family b e0 = family b e /\ find k0 (objs (get_db b e0)) = Some q) \/
     (exists v, nth_error (heap w0) q = Some v /\ len v = nb_of (samp ss (family b e)))) ->
  (forall e k1 k2 q, alive (get_db b e) = true -> g e k1 = Some q -> g e k2 = Some q -> k1 = k2) ->
  binv ss b' /\ shape b b' /\ hext b b'.
Proof.
  intros I D H Ed W C G1 G2. assert (Eg : forall e, get_db w0 e = get_db b e) by (intros e; unfold get_db; now rewrite D).
  assert (S : shape b b').
  { destruct (ed_shape _ _ _ Ed) as [X Y]. split; [congruence|]. intros e. rewrite <- (Eg e). apply Y. }
  assert (Hh : heap b' = heap b ++ l) by (rewrite (ed_heap _ _ _ Ed); auto).
  split; [|split; [auto|eapply hext_grow; eauto]]. destruct S as [Sl S].
  assert (Fm : forall e, family b' e = family b e) by (intros e; apply shape_family; split; auto).
  constructor; auto.
  - rewrite Sl. apply (i_len _ _ I).
  - intros e. destruct (S e) as (-> & -> & -> & _). destruct (S (up (get_db b e))) as (_ & _ & _ & ->). apply (i_sub _ _ I).
  - apply (i_real _ _ I).
  - intros e k1 k2 p. destruct (S e) as (_ & -> & _). rewrite !(ed_find _ _ _ Ed). apply G2.
  - intros e k p. destruct (S e) as (_ & -> & _). rewrite !(ed_find _ _ _ Ed), Fm. intros La Hg.
    destruct (G1 e k p La Hg) as [(e0 & k0 & L0 & F0 & H0)|(v & X & Y)].
    + destruct (i_sized _ _ I e0 k0 p L0 H0) as (v & X & Y). exists v. rewrite <- F0. split; auto.
      rewrite Hh. rewrite nth_error_app1; auto. apply nth_error_Some. congruence.
    + exists v. split; auto. rewrite Hh, <- H. exact X.
Qed.

Lemma binv_heap ss b h : binv ss b -> hext b (mkW h (dbs b)) -> binv ss (mkW h (dbs b)).
Proof.
  intros I H. destruct I as [W C Le S R J Z]. constructor; auto.
  - destruct W as [w1 w2 w3 w4 w5 w6 w7]. constructor; auto. intros d k p Hp.
    assert (X := w3 d k p Hp). apply nth_error_Some in X. destruct (nth_error (heap b) p) as [v|] eqn:E; [|congruence].
    destruct (H p v E) as (v' & E' & _). apply nth_error_Some. congruence.
  - intros e k p La Hf. destruct (Z e k p La Hf) as (v & X & Y). destruct (H p v X) as (v' & X' & Y').
    exists v'. split; auto. rewrite Y'. exact Y.
Qed.
Lemma shape_heap b h : shape b (mkW h (dbs b)).
Proof. split; [reflexivity|]. intros e. repeat split; reflexivity. Qed.

(** [set_obj_ptr]. *)
Lemma touched_alive b d t key e : wfv b -> alive (get_db b d) = true -> top_of b d = Some t ->
  touched VARIABLES b d t key e = true -> alive (get_db b e) = true.
Proof.
  intros W L Ht H. pose proof (top_facts _ _ _ _ _ W L Ht) as (At & _). unfold touched in H.
  apply orb_true_iff in H. destruct H as [H|H].
  - apply orb_true_iff in H. destruct H as [H|H]; apply Nat.eqb_eq in H; now subst.
  - apply andb_true_iff in H. destruct H as [H _]. apply in_list_iff in H. now destruct (wf_kids _ _ _ W _ _ H) as (_ & _ & X & _).
Qed.
Lemma edit_setting ss b d key v t b' : binv ss b -> alive (get_db b d) = true -> top_of b d = Some t ->
  len v = nb_of (samp ss d) -> wfv b' -> key_of VARIABLES key = key ->
  edit (grow b v) b' (setting VARIABLES b d t key (length (heap b))) ->
  binv ss b' /\ shape b b' /\ hext b b'.
Proof.
  intros I L Ht Hl W' Kk Ed. pose proof (i_wf _ _ I) as W.
  pose proof (top_facts _ _ _ _ _ W L Ht) as (At & Kt & Fd & _).
  eapply (binv_edit ss b (grow b v) b' _ [v]); eauto.
  - eapply (coh_setting VARIABLES any exactv b v b' d t key); eauto using i_coh.
  - intros e k q La. unfold setting. destruct (touched VARIABLES b d t key e) eqn:Tc; cbn [andb].
    + destruct (str_eqb k key) eqn:Ek.
      * intros H. injection H as <-. right. exists v. cbn [heap grow]. rewrite nth_error_app2, Nat.sub_diag by lia.
        split; auto. rewrite Hl. rewrite (samp_family ss b d I L), Fd. now rewrite (touched_family VARIABLES any _ _ _ _ _ W L Ht Tc).
      * intros H. left. exists e, k. auto.
    + intros H. left. exists e, k. auto.
  - intros e k1 k2 q La. unfold setting.
    assert (Nf : forall k, find k (objs (get_db b e)) = Some (length (heap b)) -> False).
    { intros k H. apply find_In in H. apply (wf_ptr _ _ _ W) in H. lia. }
    destruct (touched VARIABLES b d t key e); cbn [andb]; [|apply (i_inj _ _ I); auto].
    destruct (str_eqb k1 key) eqn:E1, (str_eqb k2 key) eqn:E2.
    + apply str_eqb_iff in E1, E2. congruence.
    + intros H1 H2. injection H1 as <-. now apply Nf in H2.
    + intros H1 H2. injection H2 as <-. now apply Nf in H1.
    + apply (i_inj _ _ I); auto.
Qed.
Lemma good_set_obj_ptr ss b d name p v : binv ss b -> alive (get_db b d) = true -> nth_error (heap b) p = Some v ->
  len v = nb_of (samp ss d) -> good ss b (lift A (set_obj_ptr VARIABLES b d name p)).
Proof.
  intros I L Hp Hl. pose proof (i_wf _ _ I) as W.
  destruct (set_obj_ptr_cases VARIABLES any b d name p W L (fun _ => Logic.I))
    as [(w' & -> & D & (l & Hh) & W' & _)|[(t & -> & _)|(t & v' & w' & -> & Ht & Ck & Hv & E & W')]]; cbn [lift].
  - assert (w' = mkW (heap w') (dbs b)) as -> by (destruct w'; cbn in *; now subst).
    assert (X : hext b (mkW (heap w') (dbs b))) by (eapply hext_grow; cbn; eauto).
    split; [now apply binv_heap|]. split; [apply shape_heap|]. split; auto. discriminate.
  - apply good_same; auto. discriminate.
  - assert (v' = v) as -> by congruence.
    destruct (edit_setting ss b d (key_of VARIABLES name) v t w' I L Ht Hl W' (key_idem _ _) E) as (X & Y & Z).
    split; [auto|]. split; [auto|]. split; auto. discriminate.
Qed.
Lemma good_setp ss b d name p v : binv ss b -> alive (get_db b d) = true -> nth_error (heap b) p = Some v ->
  good ss b (setp A (nb_of (samp ss d)) b d name p).
Proof.
  intros I L Hp. unfold setp. rewrite Hp. destruct (Z.eqb_spec (len v) (nb_of (samp ss d))).
  - eapply good_set_obj_ptr; eauto.
  - apply good_same; auto. discriminate.
Qed.
Lemma good_grow ss b v r : binv ss b -> good ss (grow b v) r -> good ss b r.
Proof.
  intros I. apply good_trans; [apply shape_heap|]. eapply hext_grow. reflexivity.
Qed.
Lemma binv_grow ss b v : binv ss b -> binv ss (grow b v).
Proof. intros I. apply binv_heap; auto. eapply hext_grow. reflexivity. Qed.
Lemma good_setv ss b d name v : binv ss b -> alive (get_db b d) = true -> good ss b (setv A (nb_of (samp ss d)) b d name v).
Proof.
  intros I L. unfold setv. cbn [alloc]. eapply good_grow; eauto. apply (good_setp ss (grow b v) d name _ v); auto using binv_grow.
  cbn. rewrite nth_error_app2, Nat.sub_diag by lia. reflexivity.
Qed.
Lemma good_addv ss b d name v : binv ss b -> alive (get_db b d) = true -> good ss b (addv A (nb_of (samp ss d)) b d name v).
Proof.
  intros I L. pose proof (i_wf _ _ I) as W. assert (R : good ss b (b, VExc)) by (apply good_same; auto; discriminate).
  unfold addv. destruct (_ =? 0); auto. destruct (Z.eqb_spec (len v) (nb_of (samp ss d))) as [E|]; auto.
  unfold add. destruct (check_key VARIABLES name) as [Ck|Ck]; rewrite Ck; auto.
  destruct (contains _ _ _); auto. destruct (parent_contains _ _ _ _); auto. cbn [alloc]. fold (grow b v).
  destruct (set_no_check_ok VARIABLES any b d (key_of VARIABLES name) v W L Ck (key_idem _ _) Logic.I)
    as [[_ ->]|(t & w' & Ht & -> & Ed & W')]; cbn [lift].
  - eapply good_grow; eauto. apply good_same; [now apply binv_grow|discriminate].
  - destruct (edit_setting ss b d (key_of VARIABLES name) v t w' I L Ht E W' (key_idem _ _) Ed) as (X & Y & Z).
    split; [auto|]. split; [auto|]. split; auto. discriminate.
Qed.
Lemma good_updatev ss b d name v : binv ss b -> alive (get_db b d) = true -> good ss b (updatev A (nb_of (samp ss d)) b d name v).
Proof.
  intros I L. assert (R : good ss b (b, VExc)) by (apply good_same; auto; discriminate).
  unfold updatev. destruct (_ =? _); auto. destruct (contains _ _ _); auto. now apply good_setv.
Qed.
Lemma good_copyv ss b d e sk dk : binv ss b -> alive (get_db b d) = true -> alive (get_db b e) = true ->
  good ss b (copyv A (nb_of (samp ss d)) b d e sk dk).
Proof.
  intros I L Le. assert (R : good ss b (b, VExc)) by (apply good_same; auto; discriminate).
  unfold copyv. destruct (get_obj_ptr VARIABLES (get_db b e) sk) as [p| |] eqn:G; auto.
  apply get_obj_ptr_In in G. destruct G as [k G].
  apply In_find in G; [|apply (wf_sorted _ _ _ (i_wf _ _ I))].
  destruct (i_sized _ _ I e k p Le G) as (v & Hv & _). eapply good_setp; eauto.
Qed.

(** [remove], [rename]. *)
Lemma good_remove ss b d name : binv ss b -> alive (get_db b d) = true -> good ss b (lift A (remove VARIABLES b d name)).
Proof.
  intros I L. pose proof (i_wf _ _ I) as W. pose proof (remove_ok VARIABLES any b d name W L) as [W1 _].
  pose proof (coh_remove VARIABLES any b d name W (i_coh _ _ I) L) as C1.
  destruct (remove_cases VARIABLES any b d name W L) as [[E _]|[(t & E & _)|(t & w' & E & Ht & _ & _ & Ed)]]; rewrite E in *;
    cbn [lift fst] in *; try (apply good_same; auto; discriminate).
  destruct (binv_edit ss b b w' _ [] I eq_refl (eq_sym (app_nil_r _)) Ed W1 C1) as (X & Y & Z).
  - intros e k q La. destruct (_ && _); [discriminate|]. intros H. left. exists e, k. auto.
  - intros e k1 k2 q La. destruct (in_family b t e); cbn [andb]; [|apply (i_inj _ _ I); auto].
    destruct (str_eqb k1 _); [discriminate|]. destruct (str_eqb k2 _); [discriminate|]. apply (i_inj _ _ I); auto.
  - split; [auto|]. split; [auto|]. split; auto. discriminate.
Qed.
Lemma coh_rename_alone b d x y ow : wfv b -> coherent b -> alive (get_db b d) = true ->
  (ow = true -> kids (get_db b (family b d)) = []) -> coherent (fst (rename VARIABLES b d x y ow)).
Proof.
  intros W C L H. destruct ow; [|apply (coh_rename VARIABLES any); auto]. specialize (H eq_refl).
  destruct (rename_cases VARIABLES any b d x y true W L) as [(r & -> & _)|(t & w' & p & -> & Ht & Cn & Cd & Cow & Gp & E)]; auto.
  cbn [fst]. pose proof (top_facts _ _ _ _ _ W L Ht) as (At & Kt & Fd & _). rewrite Fd in H.
  eapply (coherent_edit b); [reflexivity|exact E|]. intros t' c k q Hc. unfold moving. rewrite H. cbn [in_list existsb andb].
  rewrite !orb_false_r.
  destruct (Nat.eqb_spec t' t) as [->|Nt]; [rewrite H in Hc; destruct Hc|].
  destruct (Nat.eqb_spec c t) as [->|Nc].
  - destruct (wf_kids _ _ _ W _ _ Hc) as (K & _). contradiction.
  - apply C; auto.
Qed.
Lemma good_rename ss b d x y ow : binv ss b -> alive (get_db b d) = true ->
  (ow = true -> kids (get_db b (family b d)) = []) -> good ss b (lift A (rename VARIABLES b d x y ow)).
Proof.
  intros I L H. pose proof (i_wf _ _ I) as W. pose proof (rename_ok VARIABLES any b d x y ow W L (fun _ => Logic.I)) as [W1 _].
  pose proof (coh_rename_alone b d x y ow W (i_coh _ _ I) L H) as C1.
  destruct (rename_cases VARIABLES any b d x y ow W L) as [(r & E & _)|(t & w' & p & E & Ht & Cn & Cd & Cow & Gp & Ed)]; rewrite E in *.
  { destruct r as [r|]; cbn [lift]; apply good_same; auto; discriminate. }
  cbn [lift fst] in *. pose proof (top_facts _ _ _ _ _ W L Ht) as (At & Kt & Fd & _).
  assert (Ft : family b t = t) by (unfold family; destruct (kind (get_db b t)); auto; congruence).
  assert (Gp' : find (key_of VARIABLES x) (objs (get_db b t)) = Some p).
  { rewrite (get_obj_ptr_exact VARIABLES any) in Gp by auto. rewrite key_idem in Gp.
    destruct (find (key_of VARIABLES x) (objs (get_db b t))) eqn:Ff; try discriminate.  congruence. }
  assert (Fin : forall e, Nat.eqb e t || in_list e (kids (get_db b t)) && contains VARIABLES (get_db b e) (key_of VARIABLES x) = true ->
            family b e = t /\ (forall k, find k (objs (get_db b e)) = Some p -> k = key_of VARIABLES x)).
  { intros e He. apply orb_true_iff in He. destruct He as [He|He].
    - apply Nat.eqb_eq in He. subst e. split; auto. intros k Hk. apply (i_inj _ _ I t k (key_of VARIABLES x) p); auto.
    - apply andb_true_iff in He. destruct He as [He _]. apply in_list_iff in He. split; [eapply kid_family; eauto|].
      intros k Hk. apply (i_coh _ _ I t e k p He) in Hk. apply (i_inj _ _ I t k (key_of VARIABLES x) p); auto. }
  destruct (binv_edit ss b b w' _ [] I eq_refl (eq_sym (app_nil_r _)) Ed W1 C1) as (X & Y & Z).
  - intros e k q La. unfold moving. destruct (Nat.eqb e t || _) eqn:Tc.
    + destruct (str_eqb k _).
      * intros Hq. injection Hq as <-. left. exists t, (key_of VARIABLES x). destruct (Fin e Tc) as [-> _]. auto.
      * destruct (str_eqb k _); [discriminate|]. intros Hq. left. exists e, k. auto.
    + intros Hq. left. exists e, k. auto.
  - intros e k1 k2 q La. unfold moving. destruct (Nat.eqb e t || _) eqn:Tc; [|apply (i_inj _ _ I); auto].
    destruct (Fin e Tc) as [_ Fp].
    destruct (str_eqb k1 (key_of VARIABLES y)) eqn:E1, (str_eqb k2 (key_of VARIABLES y)) eqn:E2.
    + apply str_eqb_iff in E1, E2. congruence.
    + intros H1. injection H1 as <-. destruct (str_eqb k2 (key_of VARIABLES x)) eqn:E3; [discriminate|].
      intros H2. apply Fp in H2. subst k2. rewrite str_eqb_refl in E3. discriminate.
    + destruct (str_eqb k1 (key_of VARIABLES x)) eqn:E3; [discriminate|]. intros H1 H2. injection H2 as <-.
      apply Fp in H1. subst k1. rewrite str_eqb_refl in E3. discriminate.
    + destruct (str_eqb k1 (key_of VARIABLES x)); [discriminate|]. destruct (str_eqb k2 (key_of VARIABLES x)); [discriminate|].
      apply (i_inj _ _ I); auto.
  - split; [auto|]. split; [auto|]. split; auto. discriminate.
Qed.

(** Loops. *)
Lemma good_veach ss b0 l f : forall b, binv ss b -> shape b0 b ->
  (forall b' x, In x l -> binv ss b' -> shape b0 b' -> good ss b' (f b' x)) -> good ss b (veach A l f b).
Proof.
  induction l as [|x l IH]; intros b I S0 H; cbn [veach].
  - apply good_same; auto. discriminate.
  - destruct (H b x ltac:(now left) I S0) as (I1 & S1 & H1 & N1). destruct (f b x) as [b1 r] eqn:E. cbn [fst snd] in *.
    destruct r as [r| |]; try congruence.
    + eapply good_trans; eauto. apply IH; auto. { eapply shape_trans; eauto. } intros b' y Hy. apply H. now right.
    + split; auto.
Qed.
Lemma shape_al b b' d : shape b b' -> alive (get_db b' d) = alive (get_db b d).
Proof. intros [_ H]. apply (H d). Qed.

Lemma good_merge_one ss b d e ow n : binv ss b -> alive (get_db b d) = true -> alive (get_db b e) = true ->
  good ss b (merge_one A (nb_of (samp ss d)) d e ow b n).
Proof.
  intros I L Le. assert (R : good ss b (b, VRet true)) by (apply good_same; auto; discriminate).
  unfold merge_one. destruct (contains _ _ _); auto. destruct (contains _ _ _); [|now apply good_copyv].
  destruct ow; auto. pose proof (good_remove ss b d n I L) as (I1 & S1 & H1 & N1).
  destruct (remove VARIABLES b d n) as [b1 [r|]]; cbn [lift fst snd] in *; [|split; [auto|]; split; [auto|]; split; auto].
  eapply good_trans; eauto. apply good_copyv; auto; now rewrite (shape_al b).
Qed.
Lemma good_duplicatev ss b d e x y : binv ss b -> alive (get_db b d) = true -> alive (get_db b e) = true ->
  good ss b (duplicatev A (nb_of (samp ss d)) b d e x y).
Proof.
  intros I L Le. assert (R : good ss b (b, VRet false)) by (apply good_same; auto; discriminate).
  unfold duplicatev. destruct (_ && _); auto. destruct (negb _); auto.
  assert (X : good ss b (lift A (if contains VARIABLES (get_db b d) y then remove VARIABLES b d (key_of VARIABLES y) else (b, Ret true)))).
  { destruct (contains _ _ _); [now apply good_remove|]. apply good_same; auto. discriminate. }
  destruct X as (I1 & S1 & H1 & N1).
  destruct (if contains VARIABLES (get_db b d) y then _ else _) as [b1 [r|]]; cbn [lift fst snd] in *;
    [|split; [auto|]; split; [auto|]; split; auto].
  destruct (negb _).
  - split; [auto|]. split; [auto|]. split; auto. discriminate.
  - eapply good_trans; eauto. apply good_copyv; auto; now rewrite (shape_al b).
Qed.

(** Assignments inside a vector. *)
Lemma vector_spec ss b d name p v : binv ss b -> alive (get_db b d) = true -> vector A b d name = Some (p, v) ->
  nth_error (heap b) p = Some v /\ len v = nb_of (samp ss d).
Proof.
  intros I L H. unfold vector in H. destruct (get_obj_ptr VARIABLES (get_db b d) name) as [q| |] eqn:G; try discriminate.
  apply get_obj_ptr_In in G. destruct G as [k G]. apply In_find in G; [|apply (wf_sorted _ _ _ (i_wf _ _ I))].
  destruct (i_sized _ _ I d k q L G) as (v' & Hv & Hl). rewrite Hv in H. injection H as <- <-. split; auto.
  rewrite (samp_family ss b d I L). auto.
Qed.
Lemma hext_poke b p v v' : nth_error (heap b) p = Some v -> length v' = length v -> hext b (poke A b p v').
Proof.
  intros Hp Hl q u Hq. cbn [poke heap]. rewrite nth_error_upd. destruct (Nat.eqb_spec q p) as [->|N]; eauto.
  rewrite Hp in *. injection Hq as <-. cbn [option_map]. eauto.
Qed.
Lemma good_poke ss b p v v' : binv ss b -> nth_error (heap b) p = Some v -> length v' = length v ->
  good ss b (poke A b p v', VRet true).
Proof.
  intros I Hp Hl. pose proof (hext_poke b p v v' Hp Hl) as H. split; [now apply binv_heap|].
  split; [apply shape_heap|]. split; auto. discriminate.
Qed.

Lemma good_kv_merge_one ss b d e rep n a c name s1 s2 : binv ss b -> alive (get_db b d) = true -> alive (get_db b e) = true ->
  samp ss d = Some s1 -> samp ss e = Some s2 -> 0 < n -> 0 <= a -> 0 <= c -> a + n <= s_nb s1 -> c + n <= s_nb s2 ->
  good ss b (kv_merge_one A (s_nb s1) n a c d e rep b name).
Proof.
  intros I L Le Hd He Hn Ha Hc H1 H2. assert (R : good ss b (b, VRet true)) by (apply good_same; auto; discriminate).
  unfold kv_merge_one. destruct (contains VARIABLES (get_db b d) name && negb rep); auto.
  assert (X : good ss b (if contains VARIABLES (get_db b d) name then (b, VRet true) else if s_nb s1 <? 0 then (b, VExc)
      else setv A (s_nb s1) b d name (repeat (na A) (Z.to_nat (s_nb s1))))).
  { destruct (contains _ _ _); auto. destruct (_ <? 0); [apply good_same; auto; discriminate|].
    replace (s_nb s1) with (nb_of (samp ss d)) by now rewrite Hd. now apply good_setv. }
  destruct X as (I1 & S1 & X1 & N1). destruct (if contains _ _ _ then _ else _) as [b1 [r| |]]; cbn [fst snd] in *; try congruence;
    [|split; [auto|]; split; [auto|]; split; auto].
  assert (L1 : alive (get_db b1 d) = true) by now rewrite (shape_al b).
  assert (Le1 : alive (get_db b1 e) = true) by now rewrite (shape_al b).
  eapply good_trans; eauto.
  destruct (vector A b1 d name) as [[p1 v1]|] eqn:V1; [|apply good_same; auto; discriminate].
  destruct (vector A b1 e name) as [[p2 v2]|] eqn:V2; [|apply good_same; auto; discriminate].
  destruct (vector_spec ss b1 d name p1 v1 I1 L1 V1) as [P1 Q1]. destruct (vector_spec ss b1 e name p2 v2 I1 Le1 V2) as [P2 Q2].
  rewrite Hd in Q1. rewrite He in Q2. cbn [nb_of] in *.
  destruct (copy_range_spec A (Z.to_nat n) v1 v2 a c) as (v' & -> & Hl & _); try lia.
  eapply good_poke; eauto.
Qed.
End L.
