(** Lemmas for the theorems on variables: modes in exact arithmetic, extrapolation of databases. *)
From Coq Require Import ZArith Ascii String List Bool Lia QArith Qcanon.
From Verif Require Import M_Base M_Time M_Names M_Lex M_Compile M_Bytes M_Exec M_Exact M_Kdb M_Vars S_Kdb S_Vars
  L_Names L_Kdb L_Kdb2 L_Kdb3 L_Kdb4 L_Kdb5 L_Kdb6 L_Kdb7 L_Kdb8 L_Vars L_Vars2 L_Vars3 L_Vars4 L_Vars5.
Import ListNotations.
Open Scope Z_scope.
Local Arguments Z.add : simpl never.
Local Arguments Z.sub : simpl never.

(** * Modes, exactly *)
Notation is0 := (is_0 exactly q_tiny).
Lemma not_zero b : is0 b = false -> b <> q_ofZ 0.
Proof. intros H ->. vm_compute in H. discriminate. Qed.
Lemma rate_inverse (b x : Qc) : b <> q_ofZ 0 ->
  Qcmult (Qcminus (Qcdiv (Qcmult (Qcplus (q_ofZ 1) (Qcdiv x (q_ofZ 100))) b) b) (q_ofZ 1)) (q_ofZ 100) = x.
Proof.
  intros H. change (q_ofZ 1) with (Q2Qc 1). assert (q_ofZ 100 <> Q2Qc 0) by discriminate. change (q_ofZ 0) with (Q2Qc 0) in H.
  field. auto.
Qed.
Lemma diff_inverse (b x : Qc) : Qcminus (Qcplus b x) b = x.
Proof. ring. Qed.

Lemma mode_inverse pernb v t mode (b x : Qc) : 1 <= pernb -> 0 <= t < Z.of_nat (length v) ->
  reference exactly q_tiny pernb mode v t = Some b -> q_num x = true -> q_num (level_for exactly mode b x) = true ->
  exists v', kv_set exactly pernb v t mode x = Some v' /\ kv_get exactly q_tiny pernb v' t mode = Some x.
Proof.
  intros Hp Ht Hr Hx Hl. unfold reference in Hr. set (n := lag_of mode pernb) in *.
  destruct (Z.ltb_spec t n) as [|Hn]; [discriminate|].
  assert (N0 : 0 <= n) by (unfold n; destruct mode; cbn; lia).
  destruct (read_in exactly v (t - n)) as [z Hz]; [lia|]. rewrite (at_read _ _ _ _ Hz) in Hr.
  assert (W : forall y, exists v', write exactly v t y = Some v' /\ read exactly v' t = Some y /\ (1 <= n -> read exactly v' (t - n) = Some z)).
  { intros y. rewrite write_in by auto. eexists. split; [reflexivity|].
    pose proof (write_in exactly v t y Ht) as Hw. apply write_read in Hw. destruct Hw as [_ R]. rewrite !R, Z.eqb_refl. split; auto.
    intros. destruct (Z.eqb_spec (t - n) t); [lia|auto]. }
  assert (Diff : num exactly z = true -> 1 <= n -> q_num (Qcplus z x) = true ->
     exists v', write exactly v t (if num exactly x && num exactly z then M_Exec.add exactly z x else na exactly) = Some v' /\
       match read exactly v' t, read exactly v' (t - n) with
       | Some a, Some b => Some (if num exactly a && num exactly b then sub exactly a b else na exactly)
       | _, _ => None end = Some x).
  { intros Nz N1 Nl. destruct (W (Qcplus z x)) as (v' & Ew & R1 & R2). exists v'. cbn [num exactly] in Nz |- *. rewrite Hx, Nz. cbn [andb].
    split; auto. rewrite R1, (R2 N1). rewrite Nl, Nz. cbn [andb sub]. f_equal. apply diff_inverse. }
  assert (Rate : num exactly z && negb (is0 z) = true -> 1 <= n -> q_num (Qcmult (Qcplus (q_ofZ 1) (Qcdiv x (q_ofZ 100))) z) = true ->
     exists v', write exactly v t (if num exactly x && num exactly z
                 then mul exactly (M_Exec.add exactly (dvd exactly x (ofZ exactly 100)) (ofZ exactly 1)) z else na exactly) = Some v' /\
       match read exactly v' t, read exactly v' (t - n) with
       | Some a, Some b => Some (if num exactly a && num exactly b && negb (is0 b)
            then mul exactly (sub exactly (dvd exactly a b) (ofZ exactly 1)) (ofZ exactly 100) else na exactly)
       | _, _ => None end = Some x).
  { intros Nz N1 Nl. apply andb_true_iff in Nz. destruct Nz as [Nz Zz]. destruct (W (Qcmult (Qcplus (q_ofZ 1) (Qcdiv x (q_ofZ 100))) z)) as (v' & Ew & R1 & R2).
    exists v'. cbn [num exactly] in Nz |- *. rewrite Hx, Nz. cbn [andb mul M_Exec.add dvd ofZ sub].
    split; [rewrite (Qcplus_comm (Qcdiv x (q_ofZ 100))); exact Ew|]. rewrite R1, (R2 N1), Nl, Nz, Zz. cbn [andb]. f_equal.
    apply rate_inverse. apply not_zero. now apply negb_true_iff in Zz. }
  unfold kv_set, kv_get. destruct mode; cbn [lag_of] in *; subst n.
  - destruct (W x) as (v' & -> & R1 & _). eauto.
  - destruct (Z.ltb_spec t 1); [lia|]. rewrite Hz. assert (Nz : num exactly z = true) by (destruct (num exactly z); [auto|discriminate]). rewrite Nz in Hr. injection Hr as <-.
    apply Diff; auto; lia.
  - destruct (Z.ltb_spec t 1); [lia|]. rewrite Hz. assert (Nz : num exactly z && negb (is0 z) = true) by (destruct (num exactly z && negb (is0 z)); [auto|discriminate]). rewrite Nz in Hr. injection Hr as <-.
    apply Rate; auto; lia.
  - destruct (Z.ltb_spec t pernb); [lia|]. rewrite Hz. assert (Nz : num exactly z = true) by (destruct (num exactly z); [auto|discriminate]). rewrite Nz in Hr. injection Hr as <-.
    apply Diff; auto; lia.
  - destruct (Z.ltb_spec t pernb); [lia|]. rewrite Hz. assert (Nz : num exactly z && negb (is0 z) = true) by (destruct (num exactly z && negb (is0 z)); [auto|discriminate]). rewrite Nz in Hr. injection Hr as <-.
    apply Rate; auto; lia.
Qed.

Section L.
Variable A : arith.
Variable tiny : F A.
Notation variable := (list (F A)).
Notation world := (world (list (F A))).
Notation vworld := (vworld A).
Notation vinv := (vinv A).
Notation any := (fun _ : str => True).
Notation wfv := (wf VARIABLES any).
Notation len v := (Z.of_nat (length v)).
Hint Resolve exactv : core.

Lemma contains_var (w : vworld) d name v : vinv w -> var_of A w d name = Some v ->
  contains VARIABLES (get_db (base A w) d) name = true /\ exists p, vector A (base A w) d name = Some (p, v).
Proof.
  intros I H. apply var_of_ptr in H. destruct H as (p & Hf & Hp). split.
  - rewrite (contains_exact VARIABLES any) by (auto; apply (i_wf _ _ _ I)). now rewrite Hf.
  - exists p. rewrite vector_ptr by auto. now rewrite Hf, Hp.
Qed.

(** One assignment: what happens to all values. *)
Lemma set_var_spec (w : vworld) d name v t mode x s pernb v' : vinv w -> alive (get_db (base A w) d) = true ->
  var_of A w d name = Some v -> smpl A w d = Some s -> nb_per_year (per (s_start s)) = Ok pernb -> 0 <= t < s_nb s ->
  kv_set A pernb v t mode x = Some v' ->
  exists w', set_var A w d name t mode x = (w', VRet true) /\ vinv w' /\ var_of A w' d name = Some v' /\
    (forall e, alive (get_db (base A w') e) = alive (get_db (base A w) e)) /\ (forall e, smpl A w' e = smpl A w e) /\
    forall e n u, alive (get_db (base A w) e) = true -> var_of A w e n = Some u ->
      exists u', var_of A w' e n = Some u' /\ length u' = length u /\
        forall i, (i <> t \/ ~ same_data A w e d \/ key_of VARIABLES n <> key_of VARIABLES name) -> at_ A u' i = at_ A u i.
Proof.
  intros I L V Es Np Ht Ek. destruct (contains_var w d name v I V) as (Cn & p & Vp).
  assert (Nt : ((t <? 0) || (s_nb s <=? t)) = false) by (apply orb_false_iff; rewrite Z.ltb_ge, Z.leb_gt; lia).
  exists (mkV A (poke A (base A w) p v') (smps A w)).
  destruct (poked A w d name p v v' I L Vp) as [Ps Pv]. set (w' := mkV _ _ _) in *.
  split. { unfold set_var. now rewrite Cn, Es, Nt, Np, Vp, Ek. }
  destruct (vector_spec A _ _ _ _ _ _ I L Vp) as [Hp Hlv].
  split. { apply (good_poke A (smps A w) (base A w) p v v'); auto. eapply kv_set_length; eauto. }
  split. { rewrite Pv by auto. unfold in_list. cbn [existsb]. now rewrite Nat.eqb_refl, str_eqb_refl. }
  split; [reflexivity|]. split; [auto|]. intros e n u La Vu. rewrite Pv by auto. rewrite Vu.
  assert (Same : exists u', Some u = Some u' /\ length u' = length u /\
        forall i, (i <> t \/ ~ same_data A w e d \/ key_of VARIABLES n <> key_of VARIABLES name) -> at_ A u' i = at_ A u i) by eauto.
  assert (New : family (base A w) e = family (base A w) d -> key_of VARIABLES n = key_of VARIABLES name ->
        exists u', Some v' = Some u' /\ length u' = length u /\
        forall i, (i <> t \/ ~ same_data A w e d \/ key_of VARIABLES n <> key_of VARIABLES name) -> at_ A u' i = at_ A u i).
  { intros Fe Kn. exists v'. split; auto.
    assert (u = v) as ->.
    { apply var_of_ptr in Vu. destruct Vu as (q & Qf & Qp). apply (member_ptr A) in Qf; auto.
      rewrite vector_ptr in Vp by auto. destruct (find _ (objs (get_db (base A w) d))) as [r|] eqn:Rf; [|discriminate].
      apply (member_ptr A) in Rf; auto. rewrite Fe, Kn in Qf. assert (q = r) by congruence. subst r. rewrite Qp in Vp. congruence. }
    split; [eapply kv_set_length; eauto|]. intros i [Ni|[Ni|Ni]]; try contradiction.
    pose proof (kv_set_only A pernb v t mode x v' i Ek Ni) as R. unfold read, at_ in *. destruct (i <? 0); auto.
    assert (Ll : length v' = length v) by (eapply kv_set_length; eauto).
    destruct (nth_error v (Z.to_nat i)) eqn:Ev.
    - erewrite nth_error_nth by eauto. now erewrite nth_error_nth by eauto.
    - apply nth_error_None in Ev. rewrite !nth_overflow; auto. lia. }
  unfold in_list. cbn [existsb]. rewrite orb_false_r.
  destruct (str_eqb (key_of VARIABLES n) (key_of VARIABLES name)) eqn:Kn; rewrite ?andb_false_r; auto.
  apply str_eqb_iff in Kn. destruct (Nat.eqb_spec e d) as [->|Ne]; cbn [andb]; auto.
  destruct (Nat.eqb_spec (family (base A w) e) (family (base A w) d)); cbn [andb]; auto.
Qed.

(** * Extrapolation *)
Lemma extra_loop ss (b0 : world) d m n bt (chk : bool) names : forall b : world, binv A ss b -> dbs b = dbs b0 -> alive (get_db b0 d) = true ->
  NoDup names -> (forall x, In x names -> key_of VARIABLES x = x) ->
  forall b', veach A names (fun b n0 =>
            if chk then (b, VExc)
            else match vector A b d n0 with
            | None => (b, VExc)
            | Some (p, v) => match kv_init_loop A tiny n v bt m with
                             | Some v' => (poke A b p v', VRet true)
                             | None => (b, VUndef)
                             end
            end) b = (b', VRet true) ->
  dbs b' = dbs b0 /\
  forall p v, nth_error (heap b) p = Some v ->
    ((exists x, In x names /\ find x (objs (get_db b0 d)) = Some p) /\ nth_error (heap b') p = kv_init_loop A tiny n v bt m /\ kv_init_loop A tiny n v bt m <> None) \/
    (~ (exists x, In x names /\ find x (objs (get_db b0 d)) = Some p) /\ nth_error (heap b') p = Some v).
Proof.
  induction names as [|x names IH]; intros b I D L ND Hk b' H; cbn [veach] in H.
  - injection H as <-. split; auto. intros p v Hp. right. split; auto. intros (x & [] & _).
  - destruct chk; [discriminate|]. 
    assert (Gd : forall e, get_db b e = get_db b0 e) by (intros e; unfold get_db; now rewrite D).
    destruct (vector A b d x) as [[p0 v0]|] eqn:V; [|discriminate].
    destruct (kv_init_loop A tiny n v0 bt m) as [v1|] eqn:Ev; [|discriminate].
    assert (L1 : alive (get_db b d) = true) by now rewrite Gd.
    destruct (vector_spec A ss b d x p0 v0 I L1 V) as [Hp0 Hl0].
    assert (Hf0 : find x (objs (get_db b0 d)) = Some p0).
    { unfold vector in V. rewrite (get_obj_ptr_exact VARIABLES any) in V by (auto; apply (i_wf _ _ _ I)).
      rewrite (Hk x) in V by now left. rewrite Gd in V. destruct (find x (objs (get_db b0 d))) as [q|]; [|discriminate].
      destruct (nth_error (heap b) q); congruence. }
    assert (Lv : length v1 = length v0).
    { clear - Ev. revert v0 bt Ev. induction n as [|n IHn]; intros v0 bt Ev; cbn [kv_init_loop] in Ev; [congruence|].
      destruct (kv_init A tiny v0 bt m) as [vx|] eqn:Ei; [|discriminate]. apply IHn in Ev. rewrite Ev. clear - Ei.
      destruct (read A v0 bt) as [y|] eqn:Er.
      - apply read_Some in Er. destruct (kv_init_bounds A tiny v0 bt m Er) as (v' & E' & L' & _). congruence.
      - unfold kv_init in Ei. rewrite Er in Ei. destruct m; congruence. }
    destruct (good_poke A ss b p0 v0 v1 I Hp0 Lv) as (I1 & _). cbn [fst] in I1.
    inversion ND as [|? ? Nx ND']; subst.
    destruct (IH (poke A b p0 v1) I1 D L ND' ltac:(intros y Hy; apply Hk; now right) b' H) as [D' P]. split; auto.
    intros p v Hp. destruct (Nat.eq_dec p p0) as [->|Np].
    + assert (v = v0) as -> by congruence. destruct (P p0 v1) as [[(y & Hy & Hf) _]|[_ E]].
      { cbn [poke heap]. rewrite nth_error_upd, Nat.eqb_refl, Hp0. reflexivity. }
      * exfalso. apply Nx. rewrite <- (i_inj _ _ _ I d x y p0 L1) in Hy; auto; now rewrite Gd.
      * left. split; [exists x; split; auto; now left|]. rewrite Ev. split; [auto|discriminate].
    + destruct (P p v) as [[(y & Hy & Hf) E]|[Ny E]].
      { cbn [poke heap]. rewrite nth_error_upd. destruct (Nat.eqb_spec p p0); [congruence|auto]. }
      * left. split; auto. exists y. split; auto. now right.
      * right. split; auto. intros (y & [<-|Hy] & Hf); [congruence|]. apply Ny. eauto.
Qed.

Definition extrapolated m (bt nb : Z) (v v' : variable) : Prop :=
  length v' = length v /\ forall u, 0 <= u < len v ->
    at_ A v' u = if (bt <=? u) && (u <? bt + nb) then announced A tiny m (at_ A v u) (at_ A v' (u - 1)) (at_ A v' (u - 2)) else at_ A v u.

Lemma extrapolate_spec (w w' : vworld) d m s o sel names bt : vinv w -> alive (get_db (base A w) d) = true -> real_sample s ->
  smpl A w d = Some o -> filter_names (get_db (base A w) d) sel = Ok names ->
  difference (s_start s) (s_start o) = Ok bt ->
  extrapolate A tiny w d m s sel = (w', VRet true) ->
  (forall e, smpl A w' e = smpl A w e) /\
  forall e name v, alive (get_db (base A w) e) = true -> var_of A w e name = Some v ->
    exists v', var_of A w' e name = Some v' /\
      ((same_data A w e d /\ In (key_of VARIABLES name) names -> extrapolated m bt (s_nb s) v v') /\
       (~ (same_data A w e d /\ In (key_of VARIABLES name) names) -> v' = v)).
Proof.
  intros I L Rs Es Fn D1 H. unfold extrapolate in H. pose proof (i_wf _ _ _ I) as W.
  destruct (objs (get_db (base A w) d)) as [|kp l] eqn:Eo.
  { injection H as <-. split; auto. intros e name v La V. exists v. split; auto. split; auto. intros [_ Hi].
    pose proof (filter_names_keys _ _ _ Fn _ Hi) as Hk. rewrite Eo in Hk. destruct Hk. }
  clear Eo. rewrite Es, D1 in H. destruct (difference (s_end o) (s_end s)) as [at0| |] eqn:D2; try discriminate.
  destruct (_ || _) eqn:B; [discriminate|]. rewrite orb_false_iff, !Z.ltb_ge in B. destruct B as [B1 B2].
  assert (Ro : real_sample o) by (apply (i_real _ _ _ I d); auto).
  pose proof (difference_le s o bt at0 Rs Ro D1 D2 B1 B2) as Le. rewrite Fn in H.
  unfold on_base in H. destruct (veach _ _ _ _) as [b' r] eqn:Ev. cbn [fst snd] in H. injection H as <- ->.
  assert (Hk : forall x, In x names -> In x (keys (objs (get_db (base A w) d))) /\ key_of VARIABLES x = x).
  { intros x Hx. pose proof (filter_names_keys _ _ _ Fn _ Hx) as Hk. split; auto. now apply (key_facts VARIABLES any (base A w) d). }
  assert (ND : NoDup names).
  { assert (N0 : NoDup (keys (objs (get_db (base A w) d)))) by (apply sorted_NoDup; apply (wf_sorted _ _ _ W)).
    destruct sel as [| |f]; cbn [filter_names] in Fn.
    - injection Fn as <-. constructor. - injection Fn as <-. auto.
    - assert (N1 : NoDup (List.filter f (keys (objs (get_db (base A w) d))))) by (apply NoDup_filter; auto).
      destruct (List.filter f _); [discriminate|]. injection Fn as <-. auto. }
  destruct (extra_loop (smps A w) (base A w) d m (Z.to_nat (s_nb s)) bt (s_nb o <=? 0) names (base A w) I eq_refl L ND ltac:(intros x Hx; apply Hk; auto) b' Ev) as [D P].
  split; [reflexivity|]. intros e name v La V. apply var_of_ptr in V. destruct V as (p & Hf & Hp).
  pose proof (sized A w e name v I La) as Hlen. unfold var_of, lookup in Hlen. rewrite Hf, Hp in Hlen. specialize (Hlen eq_refl).
  assert (Gd : get_db b' e = get_db (base A w) e) by (unfold get_db; now rewrite D).
  unfold var_of, lookup. cbn [base]. rewrite Gd, Hf.
  destruct (P p v Hp) as [[(x & Hx & Hfx) [E N]]|[Nx E]]; rewrite E.
  - assert (Fe : same_data A w e d).
    { unfold same_data. apply (wf_sep _ _ _ W e d p); [exists (key_of VARIABLES name); now apply find_In|exists x; now apply find_In]. }
    assert (Kx : x = key_of VARIABLES name).
    { apply (member_ptr A) in Hf; auto. apply (member_ptr A) in Hfx; auto. unfold same_data in Fe. rewrite Fe in Hf.
      apply (i_inj _ _ _ I (family (base A w) d) x (key_of VARIABLES name) p); auto.
      unfold family. destruct (kind (get_db (base A w) d)) eqn:Kd; cbn [is_subset]; auto.
      destruct (i_sub _ _ _ I d L Kd) as [X _]. now destruct (wf_kids _ _ _ W _ _ X) as (_ & _ & _ & Y). }
    assert (En : nb_periods A w e = s_nb o).
    { unfold nb_periods. rewrite samp_smpl, (samp_family A _ _ _ I La). unfold same_data in Fe. rewrite Fe.
      rewrite <- (samp_family A _ _ _ I L). rewrite samp_smpl in Es. now rewrite Es. }
    destruct Rs as [Rs _].
    destruct (kv_init_run A tiny (Z.to_nat (s_nb s)) v bt m) as (v' & Ek & L' & R'). { lia. } { lia. }
    exists v'. split; auto. split.
    + intros _. split; auto. intros u Hu. rewrite R' by lia. rewrite Z2Nat.id by lia. reflexivity.
    + intros Nn. exfalso. apply Nn. split; auto. now rewrite <- Kx.
  - exists v. split; auto. split; auto. intros [Fe Hi]. exfalso. apply Nx. exists (key_of VARIABLES name). split; auto.
    destruct (Hk _ Hi) as [Hi' _]. unfold keys in Hi'. apply in_map_iff in Hi'. destruct Hi' as ([k q] & Ek & Hq). cbn [fst] in Ek. subst k.
    apply In_find in Hq; [|apply (wf_sorted _ _ _ W)]. apply (member_ptr A) in Hf; auto. pose proof Hq as Hq2. apply (member_ptr A) in Hq2; auto.
    unfold same_data in Fe. rewrite Fe in Hf. congruence.
Qed.

(** Reading never leaves a vector. *)
Lemma get_var_def (w : vworld) d name t mode : vinv w -> alive (get_db (base A w) d) = true -> get_var A tiny w d name t mode <> UB.
Proof.
  intros I L. unfold get_var. destruct (contains _ _ _) eqn:Cn; [|discriminate]. destruct (smpl A w d) as [s|] eqn:Es; [|discriminate].
  destruct (_ || _) eqn:B; [discriminate|]. pose proof (nb_per_year_not_ub (per (s_start s))) as Nu.
  destruct (nb_per_year (per (s_start s))) as [pn| |] eqn:Np; cbn [rbind]; try congruence.
  destruct (vector A (base A w) d name) as [[p v]|] eqn:V; [|discriminate].
  destruct (vector_spec A _ _ _ _ _ _ I L V) as [_ Lv]. rewrite samp_smpl in Es. rewrite Es in Lv. cbn [nb_of] in Lv.
  rewrite orb_false_iff, Z.ltb_ge, Z.leb_gt in B.
  destruct (kv_get_bounds A tiny pn v t mode) as [x ->]; [lia|apply nb_per_year_pos in Np; lia|discriminate].
Qed.
End L.

Lemma mode_round_trip (w : vworld exactly) d name v t mode b x s pernb : vinv exactly w -> alive (get_db (base exactly w) d) = true ->
  var_of exactly w d name = Some v -> smpl exactly w d = Some s -> nb_per_year (per (s_start s)) = Ok pernb -> 0 <= t < s_nb s ->
  reference exactly q_tiny pernb mode v t = Some b -> q_num x = true -> q_num (level_for exactly mode b x) = true ->
  exists w', set_var exactly w d name t mode x = (w', VRet true) /\ get_var exactly q_tiny w' d name t mode = Ok x.
Proof.
  intros I L V Es Np Ht Hr Hx Hl. pose proof (sized exactly w d name v I L V) as Hlen. unfold nb_periods in Hlen. rewrite Es in Hlen. cbn [nb_of] in Hlen.
  destruct (mode_inverse pernb v t mode b x) as (v' & E1 & E2); auto. { now apply nb_per_year_pos in Np. } { lia. }
  destruct (set_var_spec exactly w d name v t mode x s pernb v' I L V Es Np Ht E1) as (w' & Hs & I' & V' & Al & Sm & _).
  exists w'. split; auto. destruct (contains_var exactly w' d name v' I' V') as (Cn & p & Vp).
  unfold get_var. rewrite Cn, Sm, Es, Np, Vp. cbn [rbind].
  assert (((t <? 0) || (s_nb s <=? t)) = false) as -> by (apply orb_false_iff; rewrite Z.ltb_ge, Z.leb_gt; lia).
  now rewrite E2.
Qed.
