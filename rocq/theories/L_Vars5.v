(** Lemmas for the theorems on variables: what the calls do to the values. *)
From Coq Require Import ZArith Ascii String List Bool Lia QArith Qcanon.
From Verif Require Import M_Base M_Time M_Names M_Lex M_Compile M_Bytes M_Exec M_Exact M_Kdb M_Vars S_Kdb S_Vars
  L_Names L_Kdb L_Kdb2 L_Kdb3 L_Kdb4 L_Kdb5 L_Kdb6 L_Kdb7 L_Kdb8 L_Vars L_Vars2 L_Vars3 L_Vars4.
Import ListNotations.
Open Scope Z_scope.
Local Arguments Z.add : simpl never.
Local Arguments Z.sub : simpl never.

Section L.
Variable A : arith.
Variable tiny : F A.
Notation variable := (list (F A)).
Notation world := (world (list (F A))).
Notation vworld := (vworld A).
Notation vinv := (vinv A).
Notation any := (fun _ : str => True).
Notation wfv := (wf VARIABLES any).
Notation len v := (Z.of_nat (length v)).
Hint Resolve exactv : core.

Lemma vinv_empty : vinv (no_vars A).
Proof.
  assert (G : forall d, get_db (@empty_world variable) d = dead) by (intros [|d]; reflexivity).
  constructor; cbn [no_vars base smps].
  - apply wf_empty.
  - apply coh_empty.
  - reflexivity.
  - intros e. rewrite G. discriminate.
  - intros [|d] s H; discriminate.
  - intros e k1 k2 p. rewrite G. discriminate.
  - intros e k p. rewrite G. discriminate.
Qed.
Lemma vrun_inv ops : forall w, vinv w -> careful_run A tiny w ops -> vinv (vrun A tiny ops w).
Proof.
  induction ops as [|o ops IH]; intros w I H; auto. destruct H as [H1 H2]. cbn. apply IH; auto. now apply vinv_step.
Qed.
Lemma reach ops : careful_run A tiny (no_vars A) ops -> vinv (vrun A tiny ops (no_vars A)).
Proof. intros H. apply vrun_inv; auto. apply vinv_empty. Qed.

Lemma var_of_ptr (w : vworld) d name v : var_of A w d name = Some v <->
  exists p, find (key_of VARIABLES name) (objs (get_db (base A w) d)) = Some p /\ nth_error (heap (base A w)) p = Some v.
Proof.
  unfold var_of, lookup. destruct (find _ _) as [p|].
  - split; [eauto|]. intros (q & E & H). injection E as <-. auto.
  - split; [discriminate|]. intros (q & E & _). discriminate.
Qed.
Lemma sized w d name v : vinv w -> alive (get_db (base A w) d) = true -> var_of A w d name = Some v ->
  len v = nb_periods A w d.
Proof.
  intros I L H. apply var_of_ptr in H. destruct H as (p & Hf & Hp). destruct (i_sized _ _ _ I d _ p L Hf) as (v' & E & Hl).
  assert (v' = v) as -> by congruence. rewrite Hl. unfold nb_periods. rewrite samp_smpl. f_equal.
  symmetry. now apply (samp_family A).
Qed.
Lemma vector_ptr (w : vworld) d name : vinv w -> vector A (base A w) d name =
  match find (key_of VARIABLES name) (objs (get_db (base A w) d)) with
  | Some p => match nth_error (heap (base A w)) p with Some v => Some (p, v) | None => None end
  | None => None
  end.
Proof.
  intros I. unfold vector. rewrite (get_obj_ptr_exact VARIABLES any) by (auto; apply (i_wf _ _ _ I)).
  now destruct (find _ _).
Qed.
Lemma vector_var (w : vworld) d name p v : vinv w -> vector A (base A w) d name = Some (p, v) -> var_of A w d name = Some v.
Proof.
  intros I. rewrite vector_ptr by auto. unfold var_of, lookup. destruct (find _ _); [|discriminate].
  destruct (nth_error _ _); congruence.
Qed.

(** * Samples *)
Lemma sample_eqb_eq s o : sample_eqb s o = true -> s = o.
Proof.
  unfold sample_eqb, period_eqb. rewrite !andb_true_iff, !Z.eqb_eq, !Ascii.eqb_eq.
  destruct s as [[y1 s1 p1] [y2 s2 p2] n], o as [[y3 s3 p3] [y4 s4 p4] m]. cbn. intuition congruence.
Qed.
Lemma sample_eqb_refl s : sample_eqb s s = true.
Proof. unfold sample_eqb, period_eqb. now rewrite !Z.eqb_refl, !Ascii.eqb_refl. Qed.
Lemma position_bounds s q i : M_Time.position s q = Ok i -> 0 <= i < s_nb s.
Proof.
  unfold M_Time.position. destruct (difference q (s_start s)) as [t| |]; cbn [rbind]; try discriminate.
  destruct (_ || _) eqn:E; [discriminate|]. apply orb_false_iff in E. rewrite Z.ltb_ge, Z.leb_gt in E. intros H. injection H as <-. lia.
Qed.
Lemma read_nth (v : variable) i : 0 <= i -> read A v i = nth_error v (Z.to_nat i).
Proof. intros H. unfold read. destruct (Z.ltb_spec i 0); [lia|auto]. Qed.

(** Family members have one sample and find the objects of the top database. *)
Lemma member_ptr (w : vworld) e k p : vinv w -> alive (get_db (base A w) e) = true ->
  find k (objs (get_db (base A w) e)) = Some p -> find k (objs (get_db (base A w) (family (base A w) e))) = Some p.
Proof.
  intros I La H. unfold family. destruct (kind (get_db (base A w) e)) eqn:K; cbn [is_subset]; auto.
  destruct (i_sub _ _ _ I e La K) as [X _]. eapply (i_coh _ _ _ I); eauto.
Qed.

Definition changed (w w' : vworld) (d : nat) (s : sample) : Prop :=
  (forall e, alive (get_db (base A w) e) = true -> same_data A w e d ->
     smpl A w' e = Some s /\
     forall name q i, M_Time.position s q = Ok i ->
       value_on A w' e name q = match var_of A w e name with
                                | None => None
                                | Some _ => match value_on A w e name q with Some x => Some x | None => Some (na A) end
                                end) /\
  (forall e, alive (get_db (base A w) e) = true -> ~ same_data A w e d ->
     smpl A w' e = smpl A w e /\ forall name, var_of A w' e name = var_of A w e name).

Lemma value_on_some (w : vworld) d name v s q i : var_of A w d name = Some v -> smpl A w d = Some s -> M_Time.position s q = Ok i ->
  value_on A w d name q = nth_error v (Z.to_nat i).
Proof. intros V S P. unfold value_on. now rewrite S, V, P. Qed.

Lemma changed_same (w : vworld) d s : vinv w -> alive (get_db (base A w) d) = true -> smpl A w d = Some s -> changed w w d s.
Proof.
  intros I L Es. split; [|auto]. intros e La Sd.
  assert (E : smpl A w e = Some s).
  { rewrite samp_smpl in *. rewrite (samp_family A _ _ _ I La). unfold same_data in Sd. rewrite Sd.
    now rewrite <- (samp_family A _ _ _ I L). }
  split; auto. intros name q i P. destruct (var_of A w e name) as [v|] eqn:V.
  - pose proof (sized w e name v I La V) as Hl. unfold nb_periods in Hl. rewrite E in Hl. cbn [nb_of] in Hl.
    rewrite (value_on_some w e name v s q i V E P). pose proof (position_bounds _ _ _ P).
    destruct (nth_error v (Z.to_nat i)) eqn:N; auto. apply nth_error_None in N. lia.
  - unfold value_on. rewrite V, E. reflexivity.
Qed.

Lemma set_sample_ok (w w' : vworld) d s : vinv w -> alive (get_db (base A w) d) = true -> real_sample s ->
  set_sample A w d s = (w', VRet true) -> changed w w' d s.
Proof.
  intros I L Rs H. unfold set_sample in H. destruct (Z.eqb_spec (s_nb s) 0) as [Z0|_]; [destruct Rs; lia|].
  destruct (match smpl A w d with Some o => sample_eqb s o | None => false end) eqn:Sm.
  { injection H as <-. destruct (smpl A w d) as [o|] eqn:Es; [|discriminate]. apply sample_eqb_eq in Sm. subst o. now apply changed_same. }
  destruct (is_subset _) eqn:K; [discriminate|].
  assert (K' : kind (get_db (base A w) d) <> DB_SUBSET) by (destruct (kind (get_db (base A w) d)); discriminate).
  fold (common (smpl A w d) s) in H. destruct (common (smpl A w d) s) as [[[n a] c]| |] eqn:C; try discriminate.
  destruct (resize_spec A w d s n a c I L K' Rs C) as (h & E & Hlen & Hh). rewrite E in H.
  assert (Ew : w' = mkV A (mkW h (dbs (base A w))) (reset (d :: children (base A w) d) (Some s) (smps A w))) by (inversion H; reflexivity).
  clear H. subst w'.
  assert (Fd : family (base A w) d = d) by (unfold family; now rewrite K).
  assert (Bd : forall x, In x (d :: children (base A w) d) -> (x < length (smps A w))%nat).
  { intros x. rewrite (i_len _ _ _ I). unfold children. rewrite K. intros [<-|Hx]; [now apply live_lt|eapply kids_lt; eauto using i_wf]. }
  assert (Ch : children (base A w) d = kids (get_db (base A w) d)) by (unfold children; now rewrite K).
  destruct (common_spec (smps A w) d s n a c (i_real _ _ _ I d) Rs C) as (X1 & X2 & X3 & X4 & X5).
  split; intros e La Sd; unfold same_data in Sd; rewrite Fd in Sd.
  - assert (Ie : in_list e (d :: children (base A w) d) = true) by (rewrite Ch; now apply (in_family_iff A _ _ _ _ I La K')).
    assert (Es' : smpl A (mkV A (mkW h (dbs (base A w))) (reset (d :: children (base A w) d) (Some s) (smps A w))) e = Some s).
    { rewrite samp_smpl. cbn [smps]. rewrite samp_reset by exact Bd. now rewrite Ie. }
    split; auto. intros name q i P. pose proof (position_bounds _ _ _ P) as Bi.
    unfold value_on. rewrite Es'. unfold var_of, lookup. cbn [base heap dbs].
    change (get_db (mkW h (dbs (base A w))) e) with (get_db (base A w) e).
    destruct (find (key_of VARIABLES name) (objs (get_db (base A w) e))) as [p|] eqn:Hf; auto.
    destruct (i_sized _ _ _ I e _ p La Hf) as (v & Hv & Hl). rewrite Sd in Hl.
    assert (In p (map snd (objs (get_db (base A w) d)))) as Ip.
    { apply in_map_iff. exists (key_of VARIABLES name, p). split; auto. apply find_In. rewrite <- Sd. now apply member_ptr. }
    rewrite Hh. apply in_list_iff in Ip. rewrite Ip, Hv.
    destruct (resampled_spec A (s_nb s) n c a v) as (v' & -> & Lv & Rv); try lia. rewrite P.
    rewrite <- read_nth by lia. rewrite Rv by lia.
    assert (Ee : smpl A w e = smpl A w d).
    { rewrite !samp_smpl, (samp_family A _ _ e I La). now rewrite Sd. }
    rewrite Ee. destruct (smpl A w d) as [o|] eqn:Eo.
    + assert (Ro : real_sample o) by (apply (i_real _ _ _ I d); auto). cbn [common] in C.
      destruct (overlap_spec o s n a c Ro Rs C) as (_ & _ & _ & _ & _ & Ov). destruct (Ov q i P) as [O1 O2].
      destruct ((c <=? i) && (i <? c + n)) eqn:B.
      * apply andb_true_iff in B. rewrite Z.leb_le, Z.ltb_lt in B. rewrite O1 by lia. rewrite <- read_nth by lia.
        destruct (read A v (i - c + a)) eqn:R; auto. unfold samp in Hl. unfold smpl in Eo. rewrite Eo in Hl. cbn [nb_of] in Hl.
        destruct (read_in A v (i - c + a)) as [y Hy]; [|congruence].
        rewrite samp_smpl in *. assert (a + n <= s_nb o) by (unfold samp in X5; rewrite Eo in X5; exact X5). lia.
      * apply andb_false_iff in B. rewrite Z.leb_gt, Z.ltb_ge in B. rewrite O2 by lia. reflexivity.
    + cbn [common] in C. injection C as <- <- <-. destruct ((0 <=? i) && (i <? 0 + 0)) eqn:B; auto.
      apply andb_true_iff in B. rewrite Z.leb_le, Z.ltb_lt in B. lia.
  - assert (Ie : in_list e (d :: children (base A w) d) = false).
    { destruct (in_list _ _) eqn:Ei; auto. rewrite Ch in Ei. apply (in_family_iff A _ _ _ _ I La K') in Ei. congruence. }
    split.
    + rewrite !samp_smpl. cbn [smps]. rewrite samp_reset by exact Bd. now rewrite Ie.
    + intros name. unfold var_of, lookup. cbn [base heap dbs]. change (get_db (mkW h (dbs (base A w))) e) with (get_db (base A w) e).
      destruct (find _ _) as [p|] eqn:Hf; auto. rewrite Hh.
      assert (in_list p (map snd (objs (get_db (base A w) d))) = false) as ->; auto.
      apply in_list_false. intros Hp. apply Sd. apply in_map_iff in Hp. destruct Hp as ([k' p'] & Ep & Hp). cbn in Ep. subst p'.
      rewrite <- Fd. apply (wf_sep _ _ _ (i_wf _ _ _ I) e d p); [exists (key_of VARIABLES name); now apply find_In|now exists k'].
Qed.

Lemma set_sample_refused (w : vworld) d s : vinv w -> alive (get_db (base A w) d) = true -> real_sample s ->
  (snd (set_sample A w d s) <> VRet true -> fst (set_sample A w d s) = w) /\
  (snd (set_sample A w d s) <> VRet true <->
     smpl A w d <> Some s /\
     (kind (get_db (base A w) d) = DB_SUBSET \/
      exists o, smpl A w d = Some o /\ forall q i j, ~ (M_Time.position o q = Ok i /\ M_Time.position s q = Ok j))).
Proof.
  intros I L Rs. unfold set_sample. destruct (Z.eqb_spec (s_nb s) 0) as [Z0|_]; [destruct Rs; lia|].
  destruct (match smpl A w d with Some o => sample_eqb s o | None => false end) eqn:Sm.
  { cbn [fst snd]. split; [congruence|]. split; [congruence|]. intros [N _].
    destruct (smpl A w d) as [o|] eqn:Es; [|discriminate]. apply sample_eqb_eq in Sm. congruence. }
  assert (N : smpl A w d <> Some s).
  { intros E. rewrite E, sample_eqb_refl in Sm. discriminate. }
  destruct (is_subset _) eqn:K.
  { cbn [fst snd]. split; auto. split; [|intros _; discriminate]. intros _. split; auto. left.
    destruct (kind (get_db (base A w) d)); auto; discriminate. }
  assert (K' : kind (get_db (base A w) d) <> DB_SUBSET) by (destruct (kind (get_db (base A w) d)); discriminate).
  fold (common (smpl A w d) s). destruct (common (smpl A w d) s) as [[[n a] c]| |] eqn:C.
  - destruct (resize_spec A w d s n a c I L K' Rs C) as (h & E & Hlen & Hh). rewrite E. cbn [fst snd].
    split; [congruence|]. split; [congruence|]. intros [_ [Kb|(o & Eo & Hq)]]; [contradiction|]. exfalso.
    rewrite Eo in C. cbn [common] in C. assert (Ro : real_sample o) by (apply (i_real _ _ _ I d); auto).
    apply (overlap_throw o s Ro Rs) in Hq. congruence.
  - cbn [fst snd]. split; auto. split; [|discriminate]. intros _. split; auto. right.
    destruct (smpl A w d) as [o|] eqn:Eo; [|discriminate]. exists o. split; auto. cbn [common] in C.
    assert (Ro : real_sample o) by (apply (i_real _ _ _ I d); auto). now apply (overlap_throw o s Ro Rs).
  - destruct (smpl A w d) as [o|] eqn:Eo; [|discriminate]. cbn [common] in C.
    assert (Ro : real_sample o) by (apply (i_real _ _ _ I d); auto). now destruct (overlap_throw o s Ro Rs).
Qed.

(** * One value *)
Lemma poked (w : vworld) d name p v v' : vinv w -> alive (get_db (base A w) d) = true ->
  vector A (base A w) d name = Some (p, v) ->
  let w' := mkV A (poke A (base A w) p v') (smps A w) in
  (forall e, smpl A w' e = smpl A w e) /\
  forall e n, alive (get_db (base A w) e) = true ->
    var_of A w' e n = if in_list e [d] && str_eqb (key_of VARIABLES n) (key_of VARIABLES name) then Some v'
                      else match var_of A w e n with
                           | None => None
                           | Some u => if Nat.eqb (family (base A w) e) (family (base A w) d) &&
                                          str_eqb (key_of VARIABLES n) (key_of VARIABLES name) then Some v' else Some u
                           end.
Proof.
  intros I L V w'. split; [reflexivity|]. intros e n La. rewrite vector_ptr in V by auto.
  destruct (find (key_of VARIABLES name) (objs (get_db (base A w) d))) as [q|] eqn:Hf; [|discriminate].
  destruct (nth_error (heap (base A w)) q) as [u|] eqn:Hq; [|discriminate]. injection V as -> ->.
  unfold var_of, lookup. cbn [base w' poke heap dbs]. change (get_db (poke A (base A w) p v') e) with (get_db (base A w) e).
  unfold in_list. cbn [existsb]. rewrite orb_false_r.
  destruct (find (key_of VARIABLES n) (objs (get_db (base A w) e))) as [r|] eqn:Hn.
  - rewrite nth_error_upd. destruct (i_sized _ _ _ I e _ r La Hn) as (z & Hz & _). rewrite Hz.
    destruct (Nat.eqb_spec r p) as [->|Nr].
    + rewrite Hq. cbn [option_map].
      assert (Fe : family (base A w) e = family (base A w) d).
      { apply (wf_sep _ _ _ (i_wf _ _ _ I) e d p); [exists (key_of VARIABLES n); now apply find_In|exists (key_of VARIABLES name); now apply find_In]. }
      assert (Kn : key_of VARIABLES n = key_of VARIABLES name).
      { apply member_ptr in Hn; auto. apply member_ptr in Hf; auto. rewrite Fe in Hn.
        eapply (i_inj _ _ _ I (family (base A w) d)); eauto.
        unfold family. destruct (kind (get_db (base A w) d)) eqn:Kd; cbn [is_subset]; auto.
        destruct (i_sub _ _ _ I d L Kd) as [X _]. now destruct (wf_kids _ _ _ (i_wf _ _ _ I) _ _ X) as (_ & _ & _ & Y). }
      rewrite Fe, Nat.eqb_refl, Kn, str_eqb_refl. cbn [andb]. destruct (Nat.eqb e d); reflexivity.
    + destruct (Nat.eqb_spec e d) as [->|Ne]; cbn [andb].
      * destruct (str_eqb (key_of VARIABLES n) (key_of VARIABLES name)) eqn:Ek.
        { apply str_eqb_iff in Ek. rewrite Ek in Hn. congruence. }
        now rewrite andb_false_r.
      * destruct (Nat.eqb_spec (family (base A w) e) (family (base A w) d)) as [Fe|]; cbn [andb]; auto.
        destruct (str_eqb (key_of VARIABLES n) (key_of VARIABLES name)) eqn:Ek; auto.
        apply str_eqb_iff in Ek. apply member_ptr in Hn; auto. apply member_ptr in Hf; auto. rewrite Fe, Ek in Hn. congruence.
  - destruct (Nat.eqb_spec e d) as [->|Ne]; cbn [andb]; auto. destruct (str_eqb (key_of VARIABLES n) (key_of VARIABLES name)) eqn:Ek; auto.
    apply str_eqb_iff in Ek. rewrite Ek in Hn. congruence.
Qed.

Lemma at_read (v : variable) t x : read A v t = Some x -> at_ A v t = x.
Proof.
  unfold read, at_. destruct (t <? 0); [discriminate|]. intros H. now apply nth_error_nth.
Qed.

(** * Initialisation methods *)
Lemma previous_at (v : variable) t : 0 <= t < len v -> previous A v t = Some (at_ A v (t - 1)).
Proof.
  intros H. unfold previous. destruct (Z.ltb_spec t 1).
  - unfold at_. destruct (Z.ltb_spec (t - 1) 0); [auto|lia].
  - destruct (read_in A v (t - 1)) as [x E]; [lia|]. rewrite E. now rewrite (at_read _ _ _ E).
Qed.
Lemma kv_init_value (v : variable) t m : 0 <= t < len v -> exists v', kv_init A tiny v t m = Some v' /\ length v' = length v /\
  (forall u, u <> t -> read A v' u = read A v u) /\
  read A v' t = Some (announced A tiny m (at_ A v t) (at_ A v (t - 1)) (at_ A v (t - 2))).
Proof.
  intros H. destruct (kv_init_bounds A tiny v t m H) as (v' & E & L & O). exists v'. split; auto. split; auto. split; auto.
  destruct (read_in A v t H) as [x Hx]. pose proof (at_read _ _ _ Hx) as Hax. unfold kv_init in E. rewrite Hx in E.
  assert (W : forall y, write A v t y = Some v' -> read A v' t = Some y).
  { intros y Hy. apply write_read in Hy. destruct Hy as [_ ->]. now rewrite Z.eqb_refl. }
  assert (Keep : Some v = Some v' -> read A v' t = Some x) by congruence.
  assert (P2 : (if t <? 2 then Some (na A) else read A v (t - 2)) = Some (at_ A v (t - 2))).
  { destruct (Z.ltb_spec t 2).
    - unfold at_. destruct (Z.ltb_spec (t - 2) 0); [auto|lia].
    - destruct (read_in A v (t - 2)) as [y Ey]; [lia|]. rewrite Ey. now rewrite (at_read _ _ _ Ey). }
  assert (T : init_tm1 A v t = Some v' -> read A v' t = Some (if negb (num A (at_ A v (t - 1))) then ofZ A 1 else at_ A v (t - 1))).
  { unfold init_tm1. rewrite previous_at by auto. intros Hw. apply W in Hw. rewrite Hw. destruct (num A (at_ A v (t - 1))); reflexivity. }
  assert (X : init_extra A v t = Some v' -> read A v' t = Some (if negb (num A (at_ A v (t - 1))) then ofZ A 1 else
              if num A (at_ A v (t - 2)) then sub A (mul A (ofZ A 2) (at_ A v (t - 1))) (at_ A v (t - 2)) else at_ A v (t - 1))).
  { unfold init_extra. rewrite previous_at by auto. rewrite P2. destruct (num A (at_ A v (t - 1))); cbn [negb]; apply W. }
  rewrite Hax. unfold announced. destruct m; cbn [kept] in *; try (apply T, E); try (apply X, E); try (apply Keep, E);
    match type of E with context [if ?b then _ else _] => destruct b end; auto.
Qed.
Lemma kv_init_run n : forall (v : variable) t m, 0 <= t -> t + Z.of_nat n <= len v ->
  exists v', kv_init_loop A tiny n v t m = Some v' /\ length v' = length v /\
  forall u, 0 <= u < len v -> at_ A v' u =
    if (t <=? u) && (u <? t + Z.of_nat n) then announced A tiny m (at_ A v u) (at_ A v' (u - 1)) (at_ A v' (u - 2)) else at_ A v u.
Proof.
  induction n as [|n IH]; intros v t m H1 H2; cbn [kv_init_loop].
  - exists v. split; auto. split; auto. intros u _. destruct (Z.leb_spec t u); cbn [andb]; auto. destruct (Z.ltb_spec u (t + Z.of_nat 0)); auto. lia.
  - destruct (kv_init_value v t m) as (v1 & -> & L1 & O1 & N1). { lia. }
    destruct (IH v1 (t + 1) m) as (v2 & E2 & L2 & R2). { lia. } { rewrite L1. lia. }
    exists v2. split; auto. split; [congruence|].
    assert (At : forall u, u <> t -> at_ A v1 u = at_ A v u).
    { intros u Nu. unfold at_. destruct (Z.ltb_spec u 0); auto. specialize (O1 u Nu). rewrite !read_nth in O1 by lia.
      destruct (Nat.lt_ge_cases (Z.to_nat u) (length v)).
      - destruct (nth_error v (Z.to_nat u)) eqn:Ev; [|apply nth_error_None in Ev; lia].
        erewrite nth_error_nth by eauto. erewrite nth_error_nth by eauto. reflexivity.
      - rewrite !nth_overflow; auto. lia. }
    assert (Lo : forall u, u < t + 1 -> at_ A v2 u = at_ A v1 u).
    { intros u Hu. destruct (Z.lt_ge_cases u 0) as [Hn|Hn].
      - unfold at_. destruct (Z.ltb_spec u 0); [auto|lia].
      - rewrite R2 by lia. destruct (Z.leb_spec (t + 1) u); [lia|auto]. }
    intros u Hu. destruct (Z.eq_dec u t) as [->|Nu].
    + destruct (Z.leb_spec t t); [|lia]. destruct (Z.ltb_spec t (t + Z.of_nat (S n))); [|lia]. cbn [andb].
      rewrite Lo by lia. rewrite (at_read _ _ _ N1). rewrite !Lo by lia. rewrite !At by lia. reflexivity.
    + rewrite R2 by lia. rewrite !(At u) by lia. destruct (Z.leb_spec (t + 1) u), (Z.leb_spec t u), (Z.ltb_spec u (t + 1 + Z.of_nat n)), (Z.ltb_spec u (t + Z.of_nat (S n))); cbn [andb]; auto; lia.
Qed.
End L.
