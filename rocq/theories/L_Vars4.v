(** The invariant of variables databases: calls that create, clear or destroy databases or change
    their sample, and whole histories. *)
From Coq Require Import ZArith Ascii String List Bool Lia.
From Verif Require Import M_Base M_Time M_Names M_Lex M_Compile M_Bytes M_Exec M_Kdb M_Vars S_Kdb S_Vars
  L_Names L_Kdb L_Kdb2 L_Kdb3 L_Kdb4 L_Kdb5 L_Kdb6 L_Kdb7 L_Kdb8 L_Vars L_Vars2 L_Vars3.
Import ListNotations.
Open Scope Z_scope.
Local Arguments Z.add : simpl never.
Local Arguments Z.sub : simpl never.

Section L.
Variable A : arith.
Variable tiny : F A.
Notation variable := (list (F A)).
Notation world := (world (list (F A))).
Notation vworld := (vworld A).
Notation any := (fun _ : str => True).
Notation wfv := (wf VARIABLES any).
Notation binv := (binv A).
Notation len v := (Z.of_nat (length v)).
Implicit Types b : world.
Hint Resolve exactv : core.

Definition vinv (w : vworld) : Prop := binv (smps A w) (base A w).

Lemma samp_smpl w d : smpl A w d = samp (smps A w) d.
Proof. reflexivity. Qed.

(** Samples of a list of databases. *)
Lemma nth_upd {B} i (f : B -> B) l j z : f z = z \/ (i < length l)%nat ->
  nth j (upd_list i f l) z = if Nat.eqb j i then f (nth j l z) else nth j l z.
Proof.
  intros H. revert i j H. induction l as [|a l IH]; intros i j H.
  - assert (E : upd_list i f (@nil B) = []) by (destruct i; reflexivity). rewrite E.
    assert (Ez : nth j (@nil B) z = z) by (destruct j; reflexivity). rewrite Ez.
    destruct H as [H|H]; [|cbn in H; lia]. destruct (Nat.eqb j i); auto.
  - destruct i as [|i], j as [|j]; cbn; auto. apply IH. cbn in H. destruct H; auto. right. lia.
Qed.
Lemma samp_reset l s : forall ss e, (forall x, In x l -> (x < length ss)%nat) ->
  samp (reset l s ss) e = if in_list e l then s else samp ss e.
Proof.
  induction l as [|x l IH]; intros ss e H; cbn [reset fold_left]; auto. fold (reset l s (upd_list x (fun _ => s) ss)).
  rewrite IH. 2:{ intros y Hy. rewrite upd_list_length. apply H. now right. }
  unfold in_list. cbn [existsb]. destruct (existsb (Nat.eqb e) l); [now rewrite orb_true_r|]. rewrite orb_false_r.
  unfold samp. rewrite nth_upd. { destruct (Nat.eqb e x); auto. } right. apply H. now left.
Qed.
Lemma reset_length l s : forall ss, length (reset l s ss) = length ss.
Proof.
  induction l as [|x l IH]; intros ss; auto. cbn [reset fold_left]. fold (reset l s (upd_list x (fun _ => s) ss)).
  rewrite IH. apply upd_list_length.
Qed.
Lemma samp_app ss s e : (e < length ss)%nat -> samp (ss ++ [s]) e = samp ss e.
Proof. intros H. unfold samp. now rewrite app_nth1. Qed.
Lemma samp_last ss s : samp (ss ++ [s]) (length ss) = s.
Proof. unfold samp. now rewrite app_nth2, Nat.sub_diag by lia. Qed.
Lemma samp_out ss e : (length ss <= e)%nat -> samp ss e = None.
Proof. intros H. unfold samp. now apply nth_overflow. Qed.

(** A new, empty database of its own. *)
Lemma up_lt b e : wfv b -> kind (get_db b e) = DB_SUBSET -> (up (get_db b e) < length (dbs b))%nat.
Proof. intros W H. now destruct (wf_up _ _ _ W e H). Qed.
Lemma alive_lt b e : alive (get_db b e) = true -> (e < length (dbs b))%nat.
Proof. apply live_lt. Qed.
Lemma binv_create ss b s : binv ss b -> (forall x, s = Some x -> real_sample x) ->
  binv (ss ++ [s]) (fst (create b DB_STANDALONE 0)).
Proof.
  intros I R. pose proof (i_wf _ _ _ I) as W. set (b1 := fst (create b DB_STANDALONE 0)).
  assert (G : forall e, get_db b1 e = if Nat.eqb e (length (dbs b)) then mkDb DB_STANDALONE true 0 [] [] else get_db b e)
    by (intros e; apply get_create).
  destruct (create_ok VARIABLES any b DB_STANDALONE 0 W ltac:(discriminate)) as [W1 C1]. fold b1 in W1, C1.
  constructor; auto.
  - exact (coh_step VARIABLES any exactv b New W (i_coh _ _ _ I) Logic.I ltac:(intros n [])).
  - rewrite app_length. cbn. rewrite app_length. cbn. now rewrite (i_len _ _ _ I).
  - intros e. rewrite G. destruct (Nat.eqb_spec e (length (dbs b))) as [->|N]; [discriminate|].
    intros La K. pose proof (up_lt b e W K) as Hu. rewrite G. destruct (Nat.eqb_spec (up (get_db b e)) (length (dbs b))); [lia|].
    destruct (i_sub _ _ _ I e La K) as [X Y]. split; auto. pose proof (alive_lt _ _ La).
    rewrite !samp_app; auto; now rewrite (i_len _ _ _ I).
  - intros d x H. destruct (Nat.lt_trichotomy d (length ss)) as [L|[->|L]].
    + rewrite samp_app in H by auto. eapply i_real; eauto.
    + rewrite samp_last in H. auto.
    + rewrite samp_out in H; [discriminate|]. rewrite app_length. cbn. lia.
  - intros e k1 k2 p. rewrite G. destruct (Nat.eqb e _); [discriminate|]. apply (i_inj _ _ _ I).
  - intros e k p. destruct (Nat.eqb_spec e (length (dbs b))) as [E|N].
    + rewrite G. rewrite E, Nat.eqb_refl. discriminate.
    + destruct (C1 e N) as [X Y]. rewrite X, Y. intros La Hf.
      destruct (i_sized _ _ _ I e k p La Hf) as (v & Hv & Hl). exists v. split; auto. rewrite Hl. f_equal.
      rewrite samp_app; auto. rewrite (i_len _ _ _ I). pose proof (alive_lt _ _ La).
      unfold family. destruct (kind (get_db b e)) eqn:K; cbn [is_subset]; auto. now apply up_lt.
Qed.

(** [clear] of a database that is not a subset. *)
Lemma family_lt b e : wfv b -> (e < length (dbs b))%nat -> (family b e < length (dbs b))%nat.
Proof. intros W H. unfold family. destruct (kind (get_db b e)) eqn:K; cbn [is_subset]; auto. now apply up_lt. Qed.
Lemma in_family_clear b d e : in_family b d e = in_list e (d :: kids (get_db b d)).
Proof. reflexivity. Qed.
Lemma vinv_clear (w : vworld) d : vinv w -> alive (get_db (base A w) d) = true -> kind (get_db (base A w) d) <> DB_SUBSET ->
  vinv (clearv A w d).
Proof.
  intros I L K. set (b := base A w) in *. pose proof (i_wf _ _ _ I) as W. fold b in W.
  destruct (clear_ok VARIABLES any b d W L) as [W1 _].
  destruct (clear_spec VARIABLES any b d W L) as (Hh & Hl & [[K1 _]|[_ H]]); [contradiction|].
  unfold vinv, clearv. fold b. cbn [base smps]. destruct (is_subset (kind (get_db b d))) eqn:Ks.
  { destruct (kind (get_db b d)); try discriminate. congruence. }
  assert (Rs : forall e, samp (reset (d :: kids (get_db b d)) None (smps A w)) e =
            if in_family b d e then None else samp (smps A w) e).
  { intros e. rewrite samp_reset; auto. rewrite (i_len _ _ _ I). fold b. intros x [<-|Hx].
    - now apply live_lt. - eapply kids_lt; eauto. }
  assert (Fm : forall e, alive (get_db b e) = true -> in_family b d e = false ->
            family (clear b d) e = family b e /\ in_family b d (family b e) = false).
  { intros e La Hf. destruct (H e) as (Ke & _ & Ue & _). unfold in_family in Hf. apply orb_false_iff in Hf. destruct Hf as [Hf1 Hf2].
    unfold family. rewrite Ke, Ue, Hf2.
    split; [reflexivity|]. destruct (kind (get_db b e)) eqn:Ki; cbn [is_subset].
    - unfold in_family. now rewrite Hf1, Hf2. - unfold in_family. now rewrite Hf1, Hf2.
    - destruct (i_sub _ _ _ I e La Ki) as [X _]. fold b in X. unfold in_family. apply orb_false_iff. split.
      + apply Nat.eqb_neq. intros E. rewrite E in X. apply in_list_iff in X. congruence.
      + destruct (wf_up _ _ _ W e Ki) as [Y _]. apply in_list_false. intros HI. now destruct (wf_kids _ _ _ W _ _ HI). }
  constructor; auto.
  - apply (coh_clear VARIABLES any); auto. apply (i_coh _ _ _ I).
  - rewrite reset_length, Hl. apply (i_len _ _ _ I).
  - intros e. destruct (H e) as (-> & -> & -> & _). destruct (in_list e (kids (get_db b d))) eqn:Ie; [discriminate|].
    intros La Ki. destruct (i_sub _ _ _ I e La Ki) as [X Y]. fold b in X, Y.
    destruct (H (up (get_db b e))) as (_ & _ & _ & _ & ->).
    assert (up (get_db b e) <> d) as Nu by (intros E; rewrite E in X; apply in_list_iff in X; congruence).
    apply Nat.eqb_neq in Nu as Nu'. rewrite Nu'. split; auto. rewrite !Rs.
    assert (Fe : in_family b d e = false).
    { unfold in_family. apply orb_false_iff. split; auto. apply Nat.eqb_neq. intros ->. contradiction. }
    destruct (Fm e La Fe) as [_ Fu]. unfold family in Fu. rewrite Ki in Fu. cbn [is_subset] in Fu. now rewrite Fe, Fu.
  - intros e s. rewrite Rs. destruct (in_family b d e); [discriminate|]. apply (i_real _ _ _ I).
  - intros e k1 k2 p. destruct (H e) as (_ & -> & _ & -> & _). destruct (in_family b d e); [discriminate|]. apply (i_inj _ _ _ I).
  - intros e k p. destruct (H e) as (_ & -> & _ & -> & _). destruct (in_family b d e) eqn:Fe; [discriminate|]. intros La Hf.
    destruct (Fm e La Fe) as [-> Fu]. rewrite Rs, Fu, Hh. eapply i_sized; eauto.
Qed.

(** Destruction. *)
Lemma vinv_drop (w : vworld) d : vinv w -> alive (get_db (base A w) d) = true -> vinv (dropv A w d).
Proof.
  intros I L. unfold dropv. destruct (_ && existsb _ _) eqn:E; auto.
  pose proof (i_wf _ _ _ I) as W.
  assert (K : kind (get_db (base A w) d) <> DB_SUBSET).
  { intros K. destruct (i_sub _ _ _ I d L K) as [X _]. rewrite K in E. cbn [is_subset andb] in E.
    destruct (wf_kids _ _ _ W _ _ X) as (_ & _ & _ & Y). rewrite Y in E. cbn [andb] in E.
    apply in_list_iff in X. unfold in_list in X. congruence. }
  pose proof (vinv_clear w d I L K) as I1. unfold vinv in *.
  assert (N : is_subset (kind (get_db (base A w) d)) = false) by (destruct (kind (get_db (base A w) d)); auto; congruence).
  assert (Ed : drop (base A w) d = upd_db (clear (base A w) d) d (fun x => mkDb (kind x) false (up x) (kids x) (objs x))).
  { unfold drop. now rewrite E. }
  destruct (step_ok VARIABLES any (base A w) (Drop d) W ltac:(intros n [])) as [W1 _].
  assert (C1 := coh_step VARIABLES any exactv (base A w) (Drop d) W (i_coh _ _ _ I) Logic.I ltac:(intros n [])).
  cbn [M_Kdb.step] in W1, C1. unfold live in W1, C1. rewrite L in W1, C1. cbn [fst base smps] in *.
  change (base A (clearv A w d)) with (clear (base A w) d) in I1. rewrite Ed in *. set (b1 := clear (base A w) d) in *.
  destruct (clear_spec VARIABLES any (base A w) d W L) as (Hh & Hl & [[K1 _]|[_ H]]); [contradiction|]. fold b1 in Hh, Hl, H.
  assert (Ld : (d < length (dbs b1))%nat) by (rewrite Hl; now apply live_lt).
  set (b2 := upd_db b1 d _) in *.
  assert (G : forall e, get_db b2 e = if Nat.eqb e d then (let x := get_db b1 d in mkDb (kind x) false (up x) (kids x) (objs x)) else get_db b1 e).
  { intros e. unfold b2. rewrite get_upd by auto. destruct (Nat.eqb_spec e d) as [->|]; auto. }
  assert (Ki : forall e, kind (get_db b2 e) = kind (get_db b1 e) /\ up (get_db b2 e) = up (get_db b1 e) /\
             kids (get_db b2 e) = kids (get_db b1 e) /\ objs (get_db b2 e) = objs (get_db b1 e) /\
             (alive (get_db b2 e) = true -> alive (get_db b1 e) = true)).
  { intros e. rewrite G. destruct (Nat.eqb_spec e d) as [->|]; cbn; repeat split; auto. discriminate. }
  constructor; auto.
  - unfold b2. cbn [upd_db dbs]. rewrite upd_list_length. apply (i_len _ _ _ I1).
  - intros e La. destruct (Ki e) as (-> & -> & _ & _ & X). destruct (Ki (up (get_db b1 e))) as (_ & _ & -> & _). apply (i_sub _ _ _ I1). auto.
  - apply (i_real _ _ _ I1).
  - intros e k1 k2 p La. destruct (Ki e) as (_ & _ & _ & -> & X). apply (i_inj _ _ _ I1). auto.
  - intros e k p La. destruct (Ki e) as (Ke & Ue & _ & -> & X). unfold family. rewrite Ke, Ue. apply (i_sized _ _ _ I1). auto.
Qed.

(** Shallow subsets. *)
Lemma vinv_shallow ss b t names b2 : binv ss b -> alive (get_db b t) = true -> kind (get_db b t) <> DB_SUBSET ->
  (forall n, In n names -> check_name n VARIABLES = Ok tt /\ key_of VARIABLES n = n /\ True) ->
  shallow_copy VARIABLES (fst (create b DB_SUBSET t)) (length (dbs b)) t names = (b2, true) ->
  coherent (upd_db b2 t (set_kids (fun l => l ++ [length (dbs b)]))) ->
  binv (ss ++ [samp ss t]) (upd_db b2 t (set_kids (fun l => l ++ [length (dbs b)]))).
Proof.
  intros I L K Hn E C3. pose proof (i_wf _ _ _ I) as W. pose proof (live_lt _ _ L) as Lt.
  destruct (shallow_ok VARIABLES any b t names W L K Hn b2 E) as (W3 & Hh & Hlen & Ho & Ks & Kk & Ku & F1 & F2).
  set (s := length (dbs b)) in *. set (b1 := fst (create b DB_SUBSET t)) in *. set (b3 := upd_db b2 t _) in *.
  assert (G1 : forall e, get_db b1 e = if Nat.eqb e s then mkDb DB_SUBSET true t [] [] else get_db b e) by (intros e; apply get_create).
  assert (Nst : s <> t) by lia.
  (* kinds and owners *)
  assert (Sh : shape b1 b2).
  { unfold shallow_copy in E. fold (shallow_loop VARIABLES s t names (b1, true)) in E.
    destruct (shallow_loop_spec VARIABLES s t names b1 true Nst) as (_ & S & _).
    - unfold b1, create. cbn [fst dbs]. rewrite app_length. cbn. fold s. lia.
    - rewrite G1, Nat.eqb_refl. apply sorted_nil.
    - destruct (shallow_loop VARIABLES s t names (b1, true)) as [x [|]]; [injection E as Ex; rewrite <- Ex; exact S|discriminate]. }
  destruct Sh as [Sl Sh].
  assert (Lt2 : (t < length (dbs b2))%nat) by (rewrite Sl; unfold b1, create; cbn [fst dbs]; rewrite app_length; lia).
  assert (Sk : forall e, kind (get_db b3 e) = kind (get_db b1 e) /\ alive (get_db b3 e) = alive (get_db b1 e) /\ up (get_db b3 e) = up (get_db b1 e)).
  { intros e. destruct (Sh e) as (X & Y & Z & _). unfold b3. rewrite get_upd by auto. destruct (Nat.eqb_spec e t) as [->|]; cbn [set_kids kind alive up]; auto. }
  assert (Old : forall e, alive (get_db b3 e) = true -> e <> s -> (e < s)%nat /\ get_db b1 e = get_db b e).
  { intros e La Ne. apply live_lt in La. rewrite Hlen in La. split; [lia|]. rewrite G1. apply Nat.eqb_neq in Ne. now rewrite Ne. }
  assert (Ls : length ss = s) by apply (i_len _ _ _ I).
  assert (Fs : family b3 s = t) by (unfold family; rewrite Kk; auto).
  constructor; auto.
  - rewrite app_length, Hlen. cbn. lia.
  - intros e La Ki. destruct (Nat.eq_dec e s) as [->|Ne].
    + rewrite Ku. destruct (Ho t Lt) as (_ & _ & ->). rewrite Nat.eqb_refl. split; [apply in_or_app; right; now left|].
      rewrite <- Ls at 1. rewrite samp_last, samp_app; auto. lia.
    + destruct (Old e La Ne) as [Le Eo]. destruct (Sk e) as (A1 & A2 & A3). rewrite A1, Eo in Ki. rewrite A2, Eo in La. rewrite A3, Eo.
      destruct (i_sub _ _ _ I e La Ki) as [X Y]. pose proof (up_lt b e W Ki) as Lu. fold s in Lu.
      destruct (Ho _ Lu) as (_ & _ & ->). rewrite !samp_app by lia. split; auto.
      destruct (Nat.eqb_spec (up (get_db b e)) t) as [<-|]; auto. apply in_or_app. now left.
  - intros d x H. destruct (Nat.lt_trichotomy d (length ss)) as [Ld|[->|Ld]].
    + rewrite samp_app in H by auto. eapply i_real; eauto.
    + rewrite samp_last in H. eapply i_real; eauto.
    + rewrite samp_out in H; [discriminate|]. rewrite app_length. cbn. lia.
  - intros e k1 k2 p La. destruct (Nat.eq_dec e s) as [->|Ne].
    + intros H1 H2. assert (In k1 names) as I1 by (destruct (in_dec (list_eq_dec Ascii.ascii_dec) k1 names); auto; rewrite F2 in H1; [discriminate|auto]).
      assert (In k2 names) as I2 by (destruct (in_dec (list_eq_dec Ascii.ascii_dec) k2 names); auto; rewrite F2 in H2; [discriminate|auto]).
      destruct (F1 k1 I1) as (p1 & P1 & Q1), (F1 k2 I2) as (p2 & P2 & Q2).
      rewrite (get_obj_ptr_exact VARIABLES any) in P1, P2 by auto.
      destruct (Hn k1 I1) as (_ & Ek1 & _), (Hn k2 I2) as (_ & Ek2 & _). rewrite Ek1 in P1. rewrite Ek2 in P2.
      destruct (find k1 (objs (get_db b t))) eqn:X1; [|discriminate]. destruct (find k2 (objs (get_db b t))) eqn:X2; [|discriminate].
      apply (i_inj _ _ _ I t k1 k2 p); auto; congruence.
    + destruct (Old e La Ne) as [Le Eo]. destruct (Sk e) as (A1 & A2 & A3). rewrite A2, Eo in La. destruct (Ho e Le) as (-> & _).
      now apply (i_inj _ _ _ I).
  - intros e k p La. destruct (Nat.eq_dec e s) as [->|Ne].
    + intros H1. assert (In k names) as I1 by (destruct (in_dec (list_eq_dec Ascii.ascii_dec) k names); auto; rewrite F2 in H1; [discriminate|auto]).
      destruct (F1 k I1) as (p1 & P1 & Q1). rewrite (get_obj_ptr_exact VARIABLES any) in P1 by auto.
      destruct (Hn k I1) as (_ & Ek1 & _). rewrite Ek1 in P1. destruct (find k (objs (get_db b t))) eqn:X1; [|discriminate].
      rewrite Hh, Fs, samp_app by lia. destruct (i_sized _ _ _ I t k n L X1) as (v & Hv & Hl). exists v.
      unfold family in Hl. destruct (kind (get_db b t)); try contradiction; cbn [is_subset] in Hl; (split; [congruence|auto]).
    + destruct (Old e La Ne) as [Le Eo]. destruct (Sk e) as (A1 & A2 & A3). rewrite A2, Eo in La. destruct (Ho e Le) as (-> & -> & _).
      intros Hf. destruct (i_sized _ _ _ I e k p La Hf) as (v & Hv & Hl). exists v. rewrite Hh. split; auto.
      rewrite samp_app; auto. rewrite Ls. now apply family_lt.
Qed.

Lemma smpl_nb w d : nb_periods A w d = nb_of (samp (smps A w) d).
Proof. reflexivity. Qed.
Lemma vinv_subset (w : vworld) d sel copy : vinv w -> alive (get_db (base A w) d) = true ->
  vinv (fst (subsetv A w d sel copy)) /\ snd (subsetv A w d sel copy) <> VUndef.
Proof.
  intros I L. pose proof (i_wf _ _ _ I) as W. set (b := base A w) in *.
  assert (R : vinv w /\ VExc <> VUndef) by (split; auto; discriminate).
  unfold subsetv. fold b. destruct (filter_names (get_db b d) sel) as [names| |] eqn:Fn; auto.
  destruct (top_of b d) as [t|] eqn:Ht; auto.
  pose proof (top_facts _ _ _ _ _ W L Ht) as (At & Kt & Fd & _).
  pose proof (filter_names_keys _ _ _ Fn) as Hk.
  assert (Hn : forall n, In n names -> check_name n VARIABLES = Ok tt /\ key_of VARIABLES n = n /\ True)
    by (intros n H; apply (key_facts VARIABLES any b d); auto).
  destruct copy.
  - cbn [create].
    assert (I1 : binv (smps A w ++ [smpl A w t]) (fst (create b DB_STANDALONE 0)))
      by (apply binv_create; auto; intros x Hx; eapply i_real; eauto).
    cbn [create fst] in I1. set (b1 := mkW (heap b) _) in *.
    assert (Ls : samp (smps A w ++ [smpl A w t]) (length (dbs b)) = smpl A w t).
    { unfold b. rewrite <- (i_len _ _ _ I). apply samp_last. }
    assert (As : alive (get_db b1 (length (dbs b))) = true).
    { change b1 with (fst (create b DB_STANDALONE 0)). now rewrite get_create, Nat.eqb_refl. }
    assert (At1 : alive (get_db b1 t) = true).
    { change b1 with (fst (create b DB_STANDALONE 0)). rewrite get_create. pose proof (live_lt _ _ At).
      destruct (Nat.eqb_spec t (length (dbs b))); [lia|auto]. }
    assert (V : good A (smps A w ++ [smpl A w t]) b1 (veach A names (fun w' n => if contains VARIABLES (get_db w' t) n
              then copyv A (nb_periods A w t) w' (length (dbs b)) t n n else (w', VRet false)) b1)).
    { apply (good_veach A _ b1); auto. { apply shape_refl. } intros b' x _ I' S'.
      destruct (contains _ _ _).
      - replace (nb_periods A w t) with (nb_of (samp (smps A w ++ [smpl A w t]) (length (dbs b)))) by now rewrite Ls.
        apply good_copyv; auto; now rewrite (shape_al A b1).
      - apply good_same; auto. discriminate. }
    destruct V as (I2 & S2 & H2 & N2). destruct (veach _ _ _ _) as [b2 r] eqn:E. cbn [fst snd] in *.
    assert (B : binv (smps A w) (mkW (heap b2) (dbs b))) by (apply binv_heap; auto).
    destruct r as [r| |]; try congruence.
    + destruct (forallb _ _); (split; [auto|discriminate]).
    + split; [auto|discriminate].
  - pose proof (coh_step VARIABLES any exactv b (Subset d sel false) W (i_coh _ _ _ I) Logic.I ltac:(intros n [])) as C1.
    cbn [M_Kdb.step] in C1. unfold live in C1. rewrite L in C1.
    unfold get_subset in *. rewrite Fn, Ht in *. cbn [create] in *.
    destruct (shallow_copy _ _ _ _ _) as [b2 [|]] eqn:E; cbn [fst snd] in *.
    + split; [|discriminate]. unfold vinv. cbn [base smps]. apply (vinv_shallow (smps A w) b t names b2); auto.
    + split; [auto|discriminate].
Qed.

(** [set_sample]. *)
Lemma ptr_nodup ss b d : binv ss b -> alive (get_db b d) = true -> NoDup (map snd (objs (get_db b d))).
Proof.
  intros I L. pose proof (wf_sorted _ _ _ (i_wf _ _ _ I) d) as Sd.
  assert (Inj : forall k1 k2 p, In (k1, p) (objs (get_db b d)) -> In (k2, p) (objs (get_db b d)) -> k1 = k2).
  { intros k1 k2 p H1 H2. apply In_find in H1, H2; auto. eapply i_inj; eauto. }
  assert (Nd : NoDup (map fst (objs (get_db b d)))) by (apply sorted_NoDup; auto).
  clear - Inj Nd. induction (objs (get_db b d)) as [|[k p] l IH]; cbn in *; constructor.
  - intros H. apply in_map_iff in H. destruct H as ([k' p'] & E & H). cbn in E. subst p'.
    assert (k = k') as <- by (eapply Inj; eauto). inversion Nd. subst. apply H2. apply in_map_iff. now exists (k, p).
  - inversion Nd. subst. apply IH; auto. intros k1 k2 q H3 H4. eapply Inj; eauto.
Qed.

Definition common (o : option sample) (s : sample) : res (Z * Z * Z) :=
  match o with None => Ok (0, 0, 0) | Some o => overlap o s end.
Lemma common_spec ss d s n a c : (forall x, samp ss d = Some x -> real_sample x) -> real_sample s ->
  common (samp ss d) s = Ok (n, a, c) ->
  0 <= n /\ 0 <= a /\ 0 <= c /\ c + n <= s_nb s /\ a + n <= nb_of (samp ss d).
Proof.
  intros R Rs H. destruct (samp ss d) as [o|]; cbn [common nb_of] in *.
  - destruct (overlap_spec o s n a c (R o eq_refl) Rs H) as (X & Y & Z & P & Q & _). lia.
  - injection H as <- <- <-. destruct Rs as [Rs _]. lia.
Qed.
(** The new heap: the vectors of the database, resampled. *)
Lemma resize_spec (w : vworld) d s n a c : vinv w -> alive (get_db (base A w) d) = true ->
  kind (get_db (base A w) d) <> DB_SUBSET -> real_sample s -> common (smpl A w d) s = Ok (n, a, c) ->
  exists h, resize_objs A (map snd (objs (get_db (base A w) d))) (heap (base A w)) (s_nb s) n c a = (h, VRet true) /\
    length h = length (heap (base A w)) /\
    forall p, nth_error h p = if in_list p (map snd (objs (get_db (base A w) d)))
                              then match nth_error (heap (base A w)) p with Some v => resampled A (s_nb s) n c a v | None => None end
                              else nth_error (heap (base A w)) p.
Proof.
  intros I L K Rs C. set (b := base A w) in *. pose proof (i_wf _ _ _ I) as W. fold b in W.
  destruct (common_spec (smps A w) d s n a c (i_real _ _ _ I d) Rs C) as (X & Y & Z & P & Q).
  apply resize_objs_ok. { destruct Rs; lia. }
  - eapply ptr_nodup; eauto.
  - intros p Hp. apply in_map_iff in Hp. destruct Hp as ([k q] & <- & Hp). cbn [snd].
    apply In_find in Hp; [|apply (wf_sorted _ _ _ W)]. destruct (i_sized _ _ _ I d k q L Hp) as (v & Hv & Hl).
    exists v. split; auto. assert (family b d = d) as Fd by (unfold family; destruct (kind (get_db b d)); auto; congruence).
    fold b in Hl. rewrite Fd in Hl. destruct (resampled_spec A (s_nb s) n c a v) as (v' & -> & _); try lia. discriminate.
Qed.
Lemma family_in b d e : vinv (mkV A b (repeat None (length (dbs b)))) \/ True -> wfv b -> kind (get_db b d) <> DB_SUBSET ->
  In e (d :: kids (get_db b d)) -> family b e = d.
Proof.
  intros _ W K [<-|H].
  - unfold family. destruct (kind (get_db b d)); auto. congruence.
  - eapply kid_family; eauto.
Qed.
Lemma in_family_iff ss b d e : binv ss b -> alive (get_db b e) = true -> kind (get_db b d) <> DB_SUBSET ->
  in_list e (d :: kids (get_db b d)) = true <-> family b e = d.
Proof.
  intros I La K. pose proof (i_wf _ _ _ I) as W. rewrite in_list_iff. split.
  - apply family_in; auto.
  - unfold family. destruct (kind (get_db b e)) eqn:Ke; cbn [is_subset]; intros E; try (left; congruence).
    right. subst d. now apply (i_sub _ _ _ I).
Qed.
Lemma vinv_resize (w : vworld) d s n a c h : vinv w -> alive (get_db (base A w) d) = true ->
  kind (get_db (base A w) d) <> DB_SUBSET -> real_sample s -> common (smpl A w d) s = Ok (n, a, c) ->
  resize_objs A (map snd (objs (get_db (base A w) d))) (heap (base A w)) (s_nb s) n c a = (h, VRet true) ->
  vinv (mkV A (mkW h (dbs (base A w))) (reset (d :: children (base A w) d) (Some s) (smps A w))).
Proof.
  intros I L K Rs C E. destruct (resize_spec w d s n a c I L K Rs C) as (h' & E' & Hlen & Hh).
  rewrite E in E'. injection E' as <-. set (b := base A w) in *. pose proof (i_wf _ _ _ I) as W. fold b in W.
  destruct (common_spec (smps A w) d s n a c (i_real _ _ _ I d) Rs C) as (X & Y & Z & P & Q).
  assert (Ch : children b d = kids (get_db b d)) by (unfold children; destruct (kind (get_db b d)); auto; congruence).
  rewrite Ch.
  assert (Sp : forall e, samp (reset (d :: kids (get_db b d)) (Some s) (smps A w)) e =
            if in_list e (d :: kids (get_db b d)) then Some s else samp (smps A w) e).
  { intros e. apply samp_reset. rewrite (i_len _ _ _ I). fold b. intros x [<-|Hx]; [now apply live_lt|eapply kids_lt; eauto]. }
  unfold vinv. cbn [base smps]. set (b1 := mkW h (dbs b)).
  assert (Gd : forall e, get_db b1 e = get_db b e) by reflexivity.
  assert (Fm : forall e, family b1 e = family b e) by reflexivity.
  constructor.
  - apply (set_heap_ok VARIABLES any); auto.
  - apply (dbs_same_coherent b); auto. apply (i_coh _ _ _ I).
  - rewrite reset_length. apply (i_len _ _ _ I).
  - intros e. rewrite !Gd. intros La Ki. destruct (i_sub _ _ _ I e La Ki) as [I1 S1]. fold b in I1, S1. split; auto. rewrite !Sp.
    destruct (wf_kids _ _ _ W _ _ I1) as (_ & _ & _ & Lu).
    assert (in_list e (d :: kids (get_db b d)) = in_list (up (get_db b e)) (d :: kids (get_db b d))) as ->.
    { apply eq_true_iff_eq. rewrite (in_family_iff _ b d e I La K), (in_family_iff _ b d _ I Lu K).
      unfold family. rewrite Ki. cbn [is_subset]. destruct (wf_up _ _ _ W e Ki) as [Ku _]. 
      destruct (kind (get_db b (up (get_db b e)))); tauto. }
    destruct (in_list _ _); auto.
  - intros e x. rewrite Sp. destruct (in_list _ _); [intros Hx; injection Hx as <-; auto|apply (i_real _ _ _ I)].
  - intros e. rewrite !Gd. apply (i_inj _ _ _ I).
  - intros e k p. rewrite Gd, Fm. intros La Hf. destruct (i_sized _ _ _ I e k p La Hf) as (v & Hv & Hl). fold b in Hv, Hl.
    assert (Lf : alive (get_db b (family b e)) = true).
    { unfold family. destruct (kind (get_db b e)) eqn:Ke; cbn [is_subset]; auto.
      destruct (i_sub _ _ _ I e La Ke) as [I1 _]. now destruct (wf_kids _ _ _ W _ _ I1) as (_ & _ & _ & Lu). }
    assert (Kf : kind (get_db b (family b e)) <> DB_SUBSET).
    { unfold family. destruct (kind (get_db b e)) eqn:Ke; cbn [is_subset]; try congruence. now destruct (wf_up _ _ _ W e Ke). }
    assert (Ff : family b (family b e) = family b e) by (unfold family at 1; destruct (kind (get_db b (family b e))); auto; congruence).
    cbn [heap b1]. rewrite Hh.
    assert (Ow : In p (map snd (objs (get_db b (family b e))))).
    { apply in_map_iff. exists (k, p). split; auto. apply find_In. unfold family.
      destruct (kind (get_db b e)) eqn:Ke; cbn [is_subset]; auto. destruct (i_sub _ _ _ I e La Ke) as [I1 _].
      eapply (i_coh _ _ _ I); eauto. }
    rewrite Sp. destruct (Nat.eq_dec (family b e) d) as [Ed|Ne].
    + assert (in_list p (map snd (objs (get_db b d))) = true) as -> by (apply in_list_iff; now rewrite <- Ed).
      assert (in_list (family b e) (d :: kids (get_db b d)) = true) as -> by (apply in_list_iff; left; auto).
      cbn [nb_of]. rewrite Hv. rewrite Ed in Hl. destruct (resampled_spec A (s_nb s) n c a v) as (v' & -> & Lv & _); try lia. eauto.
    + assert (in_list p (map snd (objs (get_db b d))) = false) as ->.
      { apply in_list_false. intros Hp. apply Ne. apply in_map_iff in Hp. destruct Hp as ([k' p'] & Ep & Hp). cbn in Ep. subst p'.
        apply in_map_iff in Ow. destruct Ow as ([k2 p2] & Ep & Ow). cbn in Ep. subst p2.
        rewrite <- Ff. rewrite (wf_sep _ _ _ W (family b e) d p); [|now exists k2|now exists k'].
        unfold family. destruct (kind (get_db b d)); auto. congruence. }
      assert (in_list (family b e) (d :: kids (get_db b d)) = false) as ->.
      { destruct (in_list _ _) eqn:Ei; auto. apply (in_family_iff _ b d _ I Lf K) in Ei. congruence. }
      eauto.
Qed.
Lemma vinv_set_sample (w : vworld) d s : vinv w -> alive (get_db (base A w) d) = true -> real_sample s ->
  vinv (fst (set_sample A w d s)) /\ snd (set_sample A w d s) <> VUndef.
Proof.
  intros I L Rs. assert (R : forall r, r <> VUndef -> vinv w /\ r <> VUndef) by auto.
  unfold set_sample. destruct (_ =? 0); [apply R; discriminate|]. destruct (match smpl A w d with Some _ => _ | None => _ end); [apply R; discriminate|].
  destruct (is_subset _) eqn:K; [apply R; discriminate|].
  assert (K' : kind (get_db (base A w) d) <> DB_SUBSET) by (destruct (kind (get_db (base A w) d)); discriminate).
  fold (common (smpl A w d) s). destruct (common (smpl A w d) s) as [[[n a] c]| |] eqn:C; [|apply R; discriminate|apply R; discriminate].
  destruct (resize_spec w d s n a c I L K' Rs C) as (h & E & _). rewrite E. cbn [fst snd]. split; [|discriminate].
  eapply vinv_resize; eauto.
Qed.

(** Any call. *)
Lemma on_base_good (w : vworld) r : good A (smps A w) (base A w) r ->
  vinv (fst (on_base A w r)) /\ snd (on_base A w r) <> VUndef.
Proof. intros (I & _ & _ & N). split; auto. Qed.

Lemma contains_vector ss b d name : binv ss b -> alive (get_db b d) = true -> contains VARIABLES (get_db b d) name = true ->
  exists p v, vector A b d name = Some (p, v).
Proof.
  intros I L H. unfold vector. rewrite (get_obj_ptr_exact VARIABLES any) by (auto; apply (i_wf _ _ _ I)).
  rewrite (contains_exact VARIABLES any) in H by (auto; apply (i_wf _ _ _ I)).
  destruct (find (key_of VARIABLES name) (objs (get_db b d))) as [p|] eqn:E; [|discriminate].
  destruct (i_sized _ _ _ I d _ p L E) as (v & -> & _). eauto.
Qed.
Lemma difference_le s o bt at_ : real_sample s -> real_sample o ->
  difference (s_start s) (s_start o) = Ok bt -> difference (s_end o) (s_end s) = Ok at_ -> 0 <= bt -> 0 <= at_ ->
  bt + s_nb s <= s_nb o.
Proof.
  intros Rs Ro H1 H2. destruct (real_idx _ Rs) as (nb & Ns & Es & Bs & Is), (real_idx _ Ro) as (nb' & No & Eo & Bo & Io).
  destruct (difference_inv _ _ _ H1) as (P1 & m1 & Q1 & ->). destruct (difference_inv _ _ _ H2) as (P2 & m2 & Q2 & ->).
  assert (nb = nb') by congruence. assert (m1 = nb') by congruence. assert (m2 = nb') by congruence. subst. lia.
Qed.
Lemma vinv_step (w : vworld) o : vinv w -> careful A w o -> 
  vinv (fst (vstep A tiny w o)) /\ (snd (vstep A tiny w o) = VUndef -> sampleless A w o).
Proof.
  intros I Ca.
  assert (Ret : forall r, r <> VUndef -> vinv (fst (w, r)) /\ (snd (w, r) = VUndef -> sampleless A w o)) by (intros; split; auto; contradiction).
  assert (Fine : forall r, vinv (fst r) /\ snd r <> VUndef -> vinv (fst r) /\ (snd r = VUndef -> sampleless A w o)) by (intros r [X Y]; split; auto; contradiction).
  assert (Exc : vinv (fst (w, VExc)) /\ (snd (w, VExc) = VUndef -> sampleless A w o)) by (apply Ret; discriminate).
  destruct o as [|d n v|d n v|d n v|d n v t1 t2|d n t m x|d n|d a b ow|d e ow c|d e a b|d sel c|d|d|d s|d a b|d m s sel|d n|d e r];
    cbn [vstep careful] in *; unfold live;
    try (destruct (alive (get_db (base A w) d)) eqn:L; cbn [andb]; [|exact Exc]).
  - split; [|discriminate]. apply binv_create; auto. discriminate.
  - apply Fine, on_base_good, good_setv; auto.
  - apply Fine, on_base_good, good_addv; auto.
  - apply Fine, on_base_good, good_updatev; auto.
  - unfold update_range. destruct (_ =? 0) eqn:N0; auto. destruct (_ || _) eqn:B; auto. destruct (negb _) eqn:Lv; auto.
    destruct (contains _ _ _) eqn:Cn; auto. destruct (contains_vector _ _ _ _ I L Cn) as (p & u & Hu). rewrite Hu.
    destruct (vector_spec A _ _ _ _ _ _ I L Hu) as [_ Lu].
    rewrite !orb_false_iff, !Z.ltb_ge, !Z.leb_gt in B. apply negb_false_iff, Z.eqb_eq in Lv. unfold nb_periods in *.
    rewrite samp_smpl in *. 
    rewrite firstZ_spec by lia. destruct (copy_range_spec A (length v) (firstn (Z.to_nat (nb_of (samp (smps A w) d))) u) v t1 0) as (v' & -> & _).
    { lia. } { lia. } { rewrite firstn_length. lia. } { lia. }
    apply Fine, on_base_good, good_updatev; auto.
  - unfold set_var. destruct (contains _ _ _) eqn:Cn; auto. destruct (smpl A w d) as [s|] eqn:Es; [|apply Ret; discriminate].
    destruct (_ || _) eqn:B; [apply Ret; discriminate|]. destruct (nb_per_year (per (s_start s))) as [pn| |] eqn:Np; auto.
    destruct (contains_vector _ _ _ _ I L Cn) as (p & u & Hu). rewrite Hu.
    destruct (vector_spec A _ _ _ _ _ _ I L Hu) as [Hp Lu]. rewrite samp_smpl in Es. rewrite Es in Lu. cbn [nb_of] in Lu.
    rewrite !orb_false_iff, Z.ltb_ge, Z.leb_gt in B.
    destruct (kv_set_bounds A pn u t m x) as (v' & Ev). { lia. } { apply nb_per_year_pos in Np. lia. }
    rewrite Ev. apply kv_set_length in Ev. split; [|discriminate]. apply (good_poke A (smps A w) (base A w) p u v'); auto.
  - apply Fine, on_base_good, good_remove; auto.
  - apply Fine, on_base_good, good_rename; auto.
  - destruct (alive (get_db (base A w) e)) eqn:Le; auto. unfold mergev. destruct (objs _) eqn:Eo; [apply Ret; discriminate|]. rewrite <- Eo.
    assert (V : good A (smps A w) (base A w) (veach A (keys (objs (get_db (base A w) e))) (merge_one A (nb_periods A w d) d e ow) (base A w))).
    { apply (good_veach A _ (base A w)); auto. { apply shape_refl. } intros b' x _ I' S'.
      apply good_merge_one; auto; now rewrite (shape_al A (base A w)). }
    destruct V as (I1 & S1 & H1 & N1). destruct (veach _ _ _ _) as [b1 r]; cbn [on_base fst snd] in *.
    destruct r as [r| |]; try congruence.
    + split; [|discriminate]. cbn [fst]. destruct c; auto. apply vinv_clear; auto.
      * cbn [base]. now rewrite (shape_al A (base A w)).
      * cbn [base]. destruct S1 as [_ S1]. destruct (S1 e) as (-> & _). auto.
    + split; [auto|discriminate].
  - destruct (alive (get_db (base A w) e)) eqn:Le; auto. apply Fine, on_base_good, good_duplicatev; auto.
  - apply Fine, vinv_subset; auto.
  - split; [|discriminate]. apply vinv_clear; auto.
  - split; [|discriminate]. apply vinv_drop; auto.
  - apply Fine, vinv_set_sample; auto.
  - unfold set_sample_periods. destruct (make_sample a b) as [s| |] eqn:Ms; [|apply Ret; discriminate|apply Ret; discriminate].
    destruct (vinv_set_sample w d s I L (Ca s eq_refl)) as [X Y]. destruct (set_sample A w d s) as [w1 [r| |]]; cbn [fst snd] in *.
    + split; [auto|discriminate]. + split; [auto|discriminate]. + congruence.
  - unfold extrapolate. destruct (objs _) eqn:Eo; [apply Ret; discriminate|].
    destruct (smpl A w d) as [o|] eqn:Es.
    2:{ split; auto. intros _ H. apply H. exact Es. }
    destruct (difference (s_start s) (s_start o)) as [bt| |] eqn:D1; auto. destruct (difference (s_end o) (s_end s)) as [at_| |] eqn:D2; auto.
    destruct (_ || _) eqn:B; auto. rewrite orb_false_iff, !Z.ltb_ge in B. destruct B as [B1 B2].
    destruct (filter_names _ _) as [names| |] eqn:Fn; auto.
    assert (Ro : real_sample o) by (apply (i_real _ _ _ I d); auto).
    pose proof (difference_le s o bt at_ Ca Ro D1 D2 B1 B2) as Le.
    apply Fine, on_base_good. apply (good_veach A _ (base A w)); auto. { apply shape_refl. } intros b' x _ I' S'.
    assert (R' : good A (smps A w) b' (b', VExc)) by (apply good_same; auto; discriminate).
    destruct (_ <=? 0); auto. destruct (vector A b' d x) as [[q u]|] eqn:Hu; auto.
    assert (L1 : alive (get_db b' d) = true) by now rewrite (shape_al A (base A w)).
    destruct (vector_spec A _ _ _ _ _ _ I' L1 Hu) as [Hp Lu].
    rewrite samp_smpl in Es. rewrite Es in Lu. cbn [nb_of] in Lu. destruct Ca as [Ca _].
    destruct (kv_init_loop_bounds A tiny (Z.to_nat (s_nb s)) u bt m) as (v' & -> & Lv & _); try lia.
    apply (good_poke A (smps A w) b' q u v'); auto.
  - unfold kv_add. destruct (contains _ _ _) eqn:Cn.
    + destruct (Z.leb_spec (nb_periods A w d) 0); auto. destruct (contains_vector _ _ _ _ I L Cn) as (p & u & Hu). rewrite Hu.
      destruct (vector_spec A _ _ _ _ _ _ I L Hu) as [Hp Lu]. unfold nb_periods in *. rewrite samp_smpl in *.
      set (k := Z.to_nat _). destruct (copy_range_spec A k u (repeat (na A) k) 0 0) as (v' & -> & Lv & _); try (rewrite ?repeat_length; lia).
      split; [|discriminate]. apply (good_poke A (smps A w) (base A w) p u v'); auto.
    + destruct (smpl A w d) as [s|] eqn:Es. 2:{ split; auto. intros _ H. apply H. exact Es. }
      destruct (_ <? 0); auto. apply Fine, on_base_good.
      replace (s_nb s) with (nb_of (samp (smps A w) d)) by (rewrite samp_smpl in Es; now rewrite Es). apply good_setv; auto.
  - destruct (alive (get_db (base A w) e)) eqn:Le; auto. unfold kv_merge.
    destruct (smpl A w d) as [s1|] eqn:E1.
    + destruct (smpl A w e) as [s2|] eqn:E2; rewrite E1.
      * assert (R1 : real_sample s1) by (apply (i_real _ _ _ I d); auto). assert (R2 : real_sample s2) by (apply (i_real _ _ _ I e); auto).
        destruct (overlap s1 s2) as [[[n a] c]| |] eqn:Ov; auto.
        destruct (overlap_spec _ _ _ _ _ R1 R2 Ov) as (X & Y & Z & P & Q & _).
        apply Fine, on_base_good. apply (good_veach A _ (base A w)); auto. { apply shape_refl. } intros b' x _ I' S'.
        apply (good_kv_merge_one A _ _ _ _ _ _ _ _ _ s1 s2); auto; now rewrite (shape_al A (base A w)).
      * split; auto. intros _. split; unfold has_sample; congruence.
    + destruct (smpl A w e) as [s2|] eqn:E2; [|apply Ret; discriminate].
      assert (R2 : real_sample s2) by (apply (i_real _ _ _ I e); auto).
      destruct (vinv_set_sample w d s2 I L R2) as [I1 N1].
      destruct (set_sample A w d s2) as [w1 rr] eqn:Ss. cbn [fst snd] in *. destruct rr as [rr| |]; try congruence.
      2:{ split; [auto|discriminate]. }
      assert (Al : forall x, alive (get_db (base A w1) x) = alive (get_db (base A w) x)).
      { intros x. unfold set_sample in Ss. rewrite E1 in Ss. destruct (s_nb s2 =? 0); [congruence|].
        destruct (is_subset _); [congruence|]. destruct (resize_objs _ _ _ _ _ _ _). inversion Ss. reflexivity. }
      assert (Sm : smpl A w1 d = Some s2 /\ (smpl A w1 e = Some s2)).
      { unfold set_sample in Ss. rewrite E1 in Ss. destruct (Z.eqb_spec (s_nb s2) 0) as [Z0|]; [destruct R2; lia|].
        destruct (is_subset _) eqn:Ks; [congruence|]. destruct (resize_objs _ _ _ _ _ _ _).
        assert (Es : smps A w1 = reset (d :: children (base A w) d) (Some s2) (smps A w)) by (inversion Ss; reflexivity). rewrite !samp_smpl, Es.
        assert (Bd : forall x, In x (d :: children (base A w) d) -> (x < length (smps A w))%nat).
        { intros x. rewrite (i_len _ _ _ I). unfold children. rewrite Ks. intros [<-|Hx]; [now apply live_lt|eapply kids_lt; eauto using i_wf]. }
        rewrite !samp_reset by exact Bd. unfold in_list at 1. cbn [existsb]. rewrite Nat.eqb_refl. cbn [orb]. split; auto.
        destruct (in_list e _); auto. }
      destruct Sm as [Sm1 Sm2]. rewrite Sm1, Sm2.
      destruct (overlap s2 s2) as [[[n a] c]| |] eqn:Ov; [|split; [auto|discriminate]|split; [auto|discriminate]].
      destruct (overlap_spec _ _ _ _ _ R2 R2 Ov) as (X & Y & Z & P & Q & _).
      apply Fine, on_base_good. apply (good_veach A _ (base A w1)); auto. { apply shape_refl. } intros b' x _ I' S'.
      apply (good_kv_merge_one A _ _ _ _ _ _ _ _ _ s2 s2); auto; rewrite (shape_al A (base A w1)); auto; now rewrite Al.
Qed.
End L.
