(** Compilation, linking and execution of a formula give the value of its tree. *)
From Coq Require Import ZArith Ascii String List Bool Lia.
From Verif Require Import M_Base M_Time M_Names M_Lex M_Compile M_Bytes M_Exec S_Lec S_Eval
  L_Names L_Compile L_Compile2 L_Compile3 L_Bytes L_Link L_Exec L_Exec2.
Import ListNotations.
Open Scope Z_scope.
Local Arguments Z.add : simpl never.
Local Arguments Z.sub : simpl never.
Local Arguments Z.mul : simpl never.
Local Arguments Z.of_nat : simpl never.
Local Arguments le : simpl never.

Section Trees.
Context {A : arith} (E : env A) (real_bytes : str -> list Z) (names : list str) (curt : Z).
Notation F := (F A).
Notation start := (s_start (smp E)).
Notation bytes := (bytes real_bytes names start).
Notation fits := (S_Eval.fits E real_bytes).
Notation value := (value A E real_bytes curt).
Notation runs := (runs E real_bytes names curt).
Notation ready := (ready real_bytes names).

Lemma leaf_runs l : runs (ELeaf l).
Proof.
  intros p ms t v st _ Y Fi V _. exists v. split; [|left; reflexivity].
  destruct Y as (W & S & N & _). cbn [S_Eval.value L_Bytes.bytes] in *.
  pose proof (leaf_bytes_len real_bytes names start true ms l W) as Le.
  assert (P : 0 < len (leaf_bytes real_bytes names start true ms l)) by (rewrite Le; destruct l; cbn; lia).
  destruct l; cbn [leaf_bytes] in *.
  - apply (goes_step E names curt _ (I_REAL (real_bytes text))); [|exact P|cbn in V |- *; congruence].
    intros rest. rewrite Le. apply fetch_real. exact Fi.
  - apply (goes_step E names curt _ (I_LONG n)); [|exact P|cbn in V |- *; congruence].
    intros rest. rewrite Le. apply fetch_long. exact Fi.
  - destruct N as (i & N & N2 & N3). rewrite N in *.
    apply (goes_step E names curt _ (I_COEF (Z.of_nat i))); [|exact P|].
    + intros rest. rewrite Le. apply fetch_coef. unfold int_range. lia.
    + cbn [leaf_value] in V. destruct (scalar E name) as [w|] eqn:Sc; [|discriminate]. destruct (num A w) eqn:Nu; [|discriminate].
      injection V as <-. exists name, w. repeat split; auto. unfold name_at.
      replace (Z.of_nat i <? 0) with false by (symmetry; apply Z.ltb_ge; lia). rewrite Nat2Z.id. exact N2.
  - destruct N as (i & N & N2 & N3). rewrite N in *. cbn [S_Eval.fits] in Fi. destruct Fi as (_ & _ & Fi).
    cbn [leaf_value] in V. destruct (var_at E name) as [vals|] eqn:Va; [|discriminate].
    assert (Nm : name_at names (Z.of_nat i) = Some name).
    { unfold name_at. replace (Z.of_nat i <? 0) with false by (symmetry; apply Z.ltb_ge; lia). rewrite Nat2Z.id. exact N2. }
    destruct (placed ms) as [lag [q|]].
    + destruct Fi as (D & S1 & S2). pose proof (dated_fits E q D) as Pf. destruct D as (D1 & _ & _ & _ & d & D2).
      rewrite D2 in V. cbn [rbind] in V. injection V as <-.
      replace (lag + diff0 start q) with (d + lag) in * by (unfold diff0; rewrite D2; lia).
      apply (goes_step E names curt _ (I_VAR (Z.of_nat i) lag (d + lag) q)); [|exact P|].
      * intros rest. rewrite Le. apply fetch_var; auto. unfold int_range. lia.
      * exists name, vals. repeat split; auto. unfold read_var. apply Z.eqb_neq in D1. rewrite D1. reflexivity.
    + injection V as <-.
      apply (goes_step E names curt _ (I_VAR (Z.of_nat i) lag lag period0)); [|exact P|].
      * intros rest. rewrite Le. apply fetch_var; auto; [unfold int_range; lia|apply period0_fits].
      * exists name, vals. repeat split; auto. unfold read_var. change (year period0 =? 0) with true. cbv iota.
        unfold at_position. rewrite Z.add_comm. reflexivity.
  - cbn [S_Eval.fits] in Fi. destruct Fi as [D S1]. pose proof (dated_fits E p0 D) as Pf. destruct D as (_ & _ & _ & _ & d & D2).
    cbn [leaf_value] in V. rewrite D2 in V. cbn [rbind] in V. injection V as <-.
    replace (diff0 start p0) with d in * by (unfold diff0; rewrite D2; reflexivity).
    apply (goes_step E names curt _ (I_PERIOD p0 d)); [|exact P|reflexivity].
    intros rest. rewrite Le. apply fetch_period; auto.
  - apply (goes_step E names curt _ (I_VAL v0)); [|exact P|destruct v0; cbn in V |- *; congruence].
    intros rest. rewrite Le. apply fetch_val.
Qed.

Lemma mods_length ms sfx n : (1 <= n)%nat -> length (mods ms sfx n) = n.
Proof. intros H. unfold mods. rewrite app_length, repeat_length. cbn. lia. Qed.

Lemma all_run e : runs e.
Proof.
  induction e using ex_ind2.
  - apply leaf_runs.
  - intros p ms t v st S Y. apply IHe; assumption.
  - intros p ms t v st S (Y1 & Y2 & Y3 & Y4). cbn [shape] in Y4. apply IHe; [exact S|repeat split; tauto].
  - intros p ms t v st S (Y1 & Y2 & Y3 & Y4) Fi V Ta. rewrite steady_pre in S. rewrite !andb_true_iff in S. destruct S as [[S1 _] S2].
    cbn [S_Eval.value L_Bytes.bytes calm well_made size named shape S_Eval.fits] in *.
    pose proof (func_size_pos f).
    destruct (func_run E real_bytes names curt f [e] [ms] p t v st) as (v' & G & D); auto.
    + constructor; [|constructor]. repeat split; try tauto. lia.
    + cbn [zip fold_right]. tauto.
    + cbn [length]. lia.
    + tauto.
    + cbn [map sumZ]. lia.
    + exists v'. split; [exact G|]. destruct D as [D|(D1 & D2 & D3)]; [auto|]. right. destruct f; tauto.
  - intros p ms t v st S (Y1 & Y2 & Y3 & Y4) Fi V Ta. rewrite steady_app in S. rewrite !andb_true_iff in S. destruct S as [S1 S2].
    cbn [S_Eval.value L_Bytes.bytes calm well_made size named shape S_Eval.fits] in *.
    pose proof (func_size_pos f). destruct Y1 as (W1 & W2 & W3). destruct Y4 as (R1 & R2 & R3).
    apply fold_and_Forall in W1. apply fold_and_Forall in Y3. apply shape_all in R1.
    destruct (func_run E real_bytes names curt f args (mods ms sfx (length args)) p t v st) as (v' & G & D); auto; try lia.
    + rewrite Forall_forall in *. intros e I. pose proof (size_in e args I). repeat split; auto. lia.
    + apply mods_length. lia.
    + exists v'. split; [exact G|]. destruct D as [D|(D1 & D2 & D3)]; [auto|]. right. destruct f; tauto.
  - intros p ms t v st S (Y1 & Y2 & Y3 & Y4) Fi V Ta.
    cbn [S_Eval.value L_Bytes.bytes calm well_made size named shape S_Eval.fits steady] in *.
    apply andb_true_iff in S. destruct S as [Sa Sb]. pose proof (size_pos e1). pose proof (size_pos e2).
    destruct (value ms e1 t) as [a| |] eqn:Va; try discriminate V. cbn [rbind] in V.
    destruct (value ms e2 t) as [b| |] eqn:Vb; try discriminate V. cbn [rbind] in V.
    destruct (IHe1 p ms t a st Sa) as (a' & Ga & Da); auto; [repeat split; tauto || lia|tauto|].
    destruct (IHe2 true ms t b (a' :: st) Sb) as (b' & Gb & Db); auto; [repeat split; tauto || lia|tauto|].
    set (w := if negb (num A a') || negb (num A b') then Ok (na A) else run_op A o a' b').
    assert (Q : exists v', w = Ok v' /\ (v' = v \/ (tainted A st = true /\ calm e1 && calm e2 = false /\ v' = na A))).
    { unfold w, op_value in *. cbn [all_num forallb] in V. rewrite andb_true_r in V.
      destruct Da as [-> | (D1 & D2 & ->)].
      - destruct Db as [-> | (D1 & D2 & ->)].
        + exists v. split; [|auto]. destruct (num A a), (num A b); cbn in *; exact V.
        + rewrite num_na, orb_true_r. exists (na A). split; [reflexivity|].
          change (tainted A (a :: st)) with (negb (num A a) || tainted A st) in D1.
          destruct (num A a) eqn:Na; cbn in *.
          * right. split; [exact D1|]. split; [rewrite D2; apply andb_false_r|reflexivity].
          * left. congruence.
      - rewrite num_na. exists (na A). split; [reflexivity|]. right. rewrite D2. auto. }
    destruct Q as (v' & W & D). exists v'. split; [|exact D].
    eapply goes_app; [exact Ga|]. eapply goes_app; [exact Gb|].
    apply (goes_step E names curt _ (I_OP o)); [intros rest; apply fetch_op|rewrite len_cons, len_nil; lia|].
    exists a', b', v', st. auto.
Qed.

(** ** What the hypotheses of the theorem give *)
Lemma fits_well_made e : shape e -> forall ms, fits ms e -> well_made real_bytes e.
Proof.
  induction e using ex_ind2; intros R ms Fi; cbn [shape S_Eval.fits well_made] in *.
  - destruct l; auto.
  - eauto.
  - destruct R. eauto.
  - split; [apply (IHe ltac:(tauto) ms); assumption|]. destruct f; cbn [bodies]; lia.
  - destruct R as (R1 & R2 & R3). apply shape_all in R1. split; [|split].
    + apply fold_and_Forall. assert (L : length (mods ms sfx (length args)) = length args) by (apply mods_length; lia).
      revert Fi L. generalize (mods ms sfx (length args)). clear R2 R3.
      induction args as [|e l IH]; intros [|m ml] Fi L; try discriminate; constructor.
      * inversion H; subst. inversion R1; subst. apply (H2 H4 m). apply Fi.
      * inversion H; subst. inversion R1; subst. apply (IH H3 H5 ml); [apply Fi|cbn in L; lia].
    + destruct f; cbn [bodies]; lia.
    + intros ->. cbn in R2. lia.
  - destruct Fi. split; [apply (IHe1 ltac:(tauto) ms)|apply (IHe2 ltac:(tauto) ms)]; assumption.
Qed.
Lemma fits_dates e : forall ms, fits ms e -> dates_ok ms e.
Proof.
  induction e using ex_ind2; intros ms Fi; cbn [S_Eval.fits dates_ok] in *; auto.
  - destruct l; auto. destruct Fi as (_ & _ & Fi). destruct (placed ms) as [lag [p|]]; [|exact Fi].
    unfold dated in Fi. tauto.
  - revert Fi. apply zip_impl. rewrite Forall_forall in *. auto.
  - destruct Fi. auto.
Qed.

Lemma all_ok_in args ml rl : forallb (fun b => b) (zip ok_arg args (combine ml rl)) = true ->
  length ml = length args -> length rl = length args ->
  forall i e m r, nth_error args i = Some e -> nth_error ml i = Some m -> nth_error rl i = Some r -> ok_arg e (m, r) = true.
Proof.
  revert ml rl. induction args as [|a l IH]; intros [|m ml] [|r rl] O L1 L2; try discriminate; intros i e m0 r0 H1 H2 H3.
  - destruct i; discriminate H1.
  - cbn [combine zip forallb] in O. apply andb_true_iff in O. destruct O as [O1 O2]. destruct i as [|i]; cbn in H1, H2, H3.
    + congruence.
    + apply (IH ml rl O2 ltac:(cbn in L1; lia) ltac:(cbn in L2; lia) i); assumption.
Qed.
Lemma roles_length f n p : (1 <= n)%nat -> (bodies f <= n)%nat -> length (roles f n p) = n.
Proof.
  intros H B. destruct f as [f|f|f]; cbn [roles length]; rewrite ?app_length, ?repeat_length; cbn [length]; try lia.
Qed.
Lemma roles_series f n p i : (bodies f <= n)%nat -> (n - bodies f <= i < n)%nat ->
  nth_error (roles f n p) i = Some (Series match f with MTFN _ => true | _ => false end).
Proof.
  intros B I. destruct f as [f|f|f]; cbn [bodies roles] in *; [lia| |].
  - rewrite nth_error_app2 by (rewrite repeat_length; lia). rewrite repeat_length. replace (i - (n - 1))%nat with 0%nat by lia. reflexivity.
  - rewrite nth_error_app2 by (rewrite repeat_length; lia). rewrite repeat_length. apply nth_error_repeat. lia.
Qed.
Lemma ok_steady e x : ok_arg e x = true -> exists p, steady p (fst x) e = true.
Proof. destruct x as [m [p q|apart]]; cbn [ok_arg fst]; intros H; rewrite !andb_true_iff in H; [exists p|exists false]; tauto. Qed.
Lemma zip_intro {X Y} (P : X -> Y -> Prop) l : forall m,
  (forall i x y, nth_error l i = Some x -> nth_error m i = Some y -> P x y) -> fold_right and True (zip P l m).
Proof.
  induction l as [|x l IH]; intros [|y m] H; cbn; auto. split; [apply (H O); reflexivity|].
  apply IH. intros i a b Ha Hb. apply (H (S i)); assumption.
Qed.
Lemma nth_error_skipn {X} k : forall (l : list X) i, nth_error (skipn k l) i = nth_error l (k + i).
Proof. induction k as [|k IH]; intros [|x l] i; cbn; auto. destruct i; reflexivity. Qed.

Lemma steady_encodable e : shape e -> forall p ms, steady p ms e = true -> encodable e /\ linkable ms e.
Proof.
  induction e using ex_ind2; intros R p ms S.
  - cbn. auto.
  - cbn [shape steady encodable linkable] in *. eauto.
  - cbn [shape steady encodable linkable] in *. destruct R. eauto.
  - rewrite steady_pre in S. rewrite !andb_true_iff in S. destruct S as [[S1 S2] S3].
    cbn [shape encodable linkable] in *. destruct R as (R1 & R2 & R3).
    assert (B : (bodies f <= 1)%nat) by (destruct f; cbn [bodies]; lia).
    pose proof (roles_length f 1 p ltac:(lia) B) as Lr.
    pose proof (all_ok_in _ _ _ S3 eq_refl Lr) as O.
    assert (exists r, nth_error (roles f 1 p) 0 = Some r) as (r & Er).
    { destruct (roles f 1 p) as [|r]; [discriminate Lr|]. exists r. reflexivity. }
    specialize (O 0%nat e ms r eq_refl eq_refl Er). destruct (ok_steady _ _ O) as (q & Sq).
    destruct (IHe R1 q ms Sq) as [I1 I2]. 
    destruct f as [f|f|f]; [auto| |].
    + pose proof (roles_series (TFN f) 1 p 0 B ltac:(cbn; lia)) as Rs. rewrite Er in Rs. injection Rs as ->.
      cbn [ok_arg] in O. rewrite !andb_true_iff in O. tauto.
    + assert (B' : bodies (MTFN f) = 1%nat) by (clear - B R3; destruct f; cbn in *; lia).
      pose proof (roles_series (MTFN f) 1 p 0 B ltac:(lia)) as Rs. rewrite Er in Rs. injection Rs as ->.
      cbn [ok_arg] in O. rewrite !andb_true_iff in O. cbn in O. tauto.
  - rewrite steady_app in S. rewrite !andb_true_iff in S. destruct S as [S1 S2].
    cbn [shape encodable linkable] in *. destruct R as (R1 & R2 & R3). apply shape_all in R1.
    assert (B : (bodies f <= length args)%nat) by (destruct f; cbn [bodies]; lia).
    pose proof (roles_length f (length args) p ltac:(lia) B) as Lr.
    assert (Lm : length (mods ms sfx (length args)) = length args) by (apply mods_length; lia).
    pose proof (all_ok_in _ _ _ S2 Lm Lr) as O.
    assert (Ex : forall X (l : list X) i, length l = length args -> (i < length args)%nat -> exists x, nth_error l i = Some x).
    { intros X l i Hl Hi. destruct (nth_error l i) eqn:Q; eauto. apply nth_error_None in Q. lia. }
    assert (Each : forall i e m, nth_error args i = Some e -> nth_error (mods ms sfx (length args)) i = Some m ->
      encodable e /\ linkable m e).
    { intros i e m He Hm. assert (Hi : (i < length args)%nat) by (apply nth_error_Some; congruence).
      destruct (Ex _ _ i Lr Hi) as [r Hr]. specialize (O i e m r He Hm Hr). destruct (ok_steady _ _ O) as (q & Sq).
      apply nth_error_In in He. rewrite Forall_forall in *. apply (H e He (R1 e He) q). exact Sq. }
    assert (Ser : forall i e m, nth_error args i = Some e -> nth_error (mods ms sfx (length args)) i = Some m ->
      (length args - bodies f <= i)%nat -> no_mtfn e = true /\ match f with MTFN _ => undated m e = true | _ => True end).
    { intros i e m He Hm Hk. assert (Hi : (i < length args)%nat) by (apply nth_error_Some; congruence).
      pose proof (roles_series f (length args) p i B ltac:(lia)) as Hr. specialize (O i e m _ He Hm Hr).
      cbn [ok_arg] in O. rewrite !andb_true_iff in O. destruct f; cbn in O; tauto. }
    repeat split.
    + apply fold_and_Forall. apply Forall_forall. intros e I. apply In_nth_error in I. destruct I as [i He].
      assert (Hi : (i < length args)%nat) by (apply nth_error_Some; congruence). destruct (Ex _ _ i Lm Hi) as [m Hm].
      apply (Each i e m He Hm).
    + apply Forall_forall. intros e I. apply In_nth_error in I. destruct I as [i He]. rewrite nth_error_skipn in He.
      assert (Hi : (length args - bodies f + i < length args)%nat) by (apply nth_error_Some; congruence).
      destruct (Ex _ _ _ Lm Hi) as [m Hm]. apply (Ser _ e m He Hm). lia.
    + apply zip_intro. intros i e m He Hm. apply (Each i e m He Hm).
    + destruct f; auto. cbv zeta. apply zip_intro. intros i e m He Hm. rewrite nth_error_skipn in He; rewrite nth_error_skipn in Hm.
      apply (Ser _ e m He Hm). lia.
  - cbn [shape steady encodable linkable] in *. apply andb_true_iff in S. destruct S as [Sa Sb].
    destruct (IHe1 ltac:(tauto) _ _ Sa), (IHe2 ltac:(tauto) _ _ Sb). auto.
Qed.
End Trees.

(** ** Names *)
Fixpoint tree_names (e : ex) : list str :=
  match e with
  | ELeaf (LVar n) | ELeaf (LCoef n) => [n]
  | ELeaf _ => []
  | EPar e | ESfx e _ | EPre _ e => tree_names e
  | EApp _ args _ => flat_map tree_names args
  | EBin _ a b => tree_names a ++ tree_names b
  end.
Lemma name_sfx s a : atom_name (sfx_atom s a) = atom_name a.
Proof. destruct s as [neg k|p], a; cbn; try reflexivity; destruct (step _ =? 0); reflexivity. Qed.
Lemma names_map s x : flat_map atom_name (map (sfx_atom s) x) = flat_map atom_name x.
Proof. induction x; cbn; [reflexivity|]. rewrite name_sfx, IHx. reflexivity. Qed.
Lemma names_sfx_all sfx : forall x, flat_map atom_name (sfx_all sfx x) = flat_map atom_name x.
Proof. unfold sfx_all. induction sfx as [|s l IH]; intros x; [reflexivity|]. cbn [fold_left]. rewrite IH. apply names_map. Qed.
Lemma names_group x : flat_map atom_name (group x) = flat_map atom_name x.
Proof. unfold group. cbn. rewrite flat_map_app. cbn. apply app_nil_r. Qed.
Lemma names_rpn e : flat_map atom_name (rpn e) = tree_names e.
Proof.
  induction e using ex_ind2; cbn [rpn tree_names].
  - destruct l; reflexivity.
  - rewrite names_group. assumption.
  - rewrite names_map. assumption.
  - rewrite flat_map_app, IHe. apply app_nil_r.
  - rewrite flat_map_app. cbn [flat_map atom_name app]. rewrite app_nil_r.
    induction args as [|e [|e' l] IH]; [reflexivity| |].
    + cbn [map groups flat_map]. rewrite names_sfx_all, names_group, app_nil_r. inversion H; assumption.
    + change (groups sfx (map rpn (e :: e' :: l))) with (group (rpn e) ++ groups sfx (map rpn (e' :: l))).
      rewrite flat_map_app, names_group. inversion H; subst. rewrite H2, IH by assumption. reflexivity.
  - rewrite !flat_map_app, IHe1, IHe2. cbn [flat_map atom_name]. rewrite app_nil_r. reflexivity.
Qed.
Lemma names_size e : Z.of_nat (length (tree_names e)) <= size e.
Proof.
  induction e using ex_ind2; cbn [tree_names size]; auto.
  - destruct l; cbn; lia.
  - pose proof (func_size_pos f). lia.
  - pose proof (func_size_pos f). assert (Z.of_nat (length (flat_map tree_names args)) <= sumZ (map size args)); [|lia].
    induction H; cbn [flat_map map sumZ]; [cbn; lia|]. rewrite app_length. lia.
  - rewrite app_length. lia.
Qed.
Lemma str_eqb_sound a b : str_eqb a b = true -> a = b.
Proof. intros H. apply str_eqb_iff. exact H. Qed.
Lemma index_of_spec x l : forall i, match index_of x l i with
  | Some k => exists j, k = i + Z.of_nat j /\ nth_error l j = Some x
  | None => ~ In x l end.
Proof.
  induction l as [|y l IH]; intros i; cbn [index_of]; [auto|].
  destruct (str_eqb x y) eqn:Q.
  - apply str_eqb_sound in Q. subst. exists 0%nat. split; [lia|reflexivity].
  - specialize (IH (i + 1)). destruct (index_of x l (i + 1)).
    + destruct IH as (j & -> & H). exists (S j). split; [lia|exact H].
    + intros [-> | H]; [|tauto]. assert (str_eqb x x = true) by (apply str_eqb_iff; reflexivity). congruence.
Qed.
Lemma add_names_spec l : forall acc n, (In n (fold_left add_name l acc) <-> In n l \/ In n acc) .
Proof.
  induction l as [|x l IH]; intros acc n; cbn [fold_left In]; [tauto|]. rewrite IH. unfold add_name.
  pose proof (index_of_spec x acc 0) as Q. destruct (index_of x acc 0).
  - destruct Q as (j & _ & Q). apply nth_error_In in Q. split; [tauto|]. intros [[<- | H] | H]; auto.
  - rewrite in_app_iff. cbn [In]. tauto.
Qed.
Lemma add_names_len l : forall acc, (length (fold_left add_name l acc) <= length l + length acc)%nat.
Proof.
  induction l as [|x l IH]; intros acc; cbn [fold_left length]; [lia|]. specialize (IH (add_name acc x)).
  assert (length (add_name acc x) <= S (length acc))%nat; [|lia].
  unfold add_name. destruct (index_of x acc 0); rewrite ?app_length; cbn [length]; lia.
Qed.
Lemma named_all names e : (forall n, In n (tree_names e) -> In n names) -> Z.of_nat (length names) < 2147483648 -> named names e.
Proof.
  intros H B. assert (G : forall n, In n names -> exists i, pos_of names n = Z.of_nat i /\ nth_error names i = Some n /\ Z.of_nat i < 2147483648).
  { intros n I. unfold pos_of. pose proof (index_of_spec n names 0) as Q. destruct (index_of n names 0); [|contradiction].
    destruct Q as (j & -> & Q). exists j. split; [lia|split; [exact Q|]]. assert (j < length names)%nat by (apply nth_error_Some; congruence). lia. }
  induction e using ex_ind2; cbn [named tree_names] in *; auto.
  - destruct l; auto; apply G, H; left; reflexivity.
  - apply fold_and_Forall. rewrite Forall_forall in *. intros e I. apply H0; auto. intros n J. apply H. apply in_flat_map. eauto.
  - split; [apply IHe1|apply IHe2]; intros n I; apply H, in_app_iff; auto.
Qed.
Lemma fits_names {A} (E : env A) real_bytes e : shape e -> forall ms n, S_Eval.fits E real_bytes ms e -> In n (tree_names e) ->
  (if is_coefficient n then match scalar E n with Some _ => true | None => false end
   else match var_at E n with Some _ => true | None => false end) = true.
Proof.
  induction e using ex_ind2; intros R ms n Fi I; cbn [shape S_Eval.fits tree_names] in *.
  - destruct l; try contradiction I; destruct I as [<- | []]; destruct Fi as (Fi & N).
    + rewrite Fi. destruct (scalar E name); congruence.
    + rewrite Fi. destruct N as [N _]. destruct (var_at E name); congruence.
  - eauto.
  - destruct R. eauto.
  - destruct R. eauto.
  - destruct R as (R1 & R2 & _). apply shape_all in R1. apply in_flat_map in I. destruct I as (e & Ie & In_).
    assert (L : length (mods ms sfx (length args)) = length args) by (apply mods_length; lia).
    revert Fi L. generalize (mods ms sfx (length args)). clear R2.
    induction args as [|a l IH]; intros [|m ml] Fi L; try discriminate; [contradiction Ie|].
    inversion H; subst. inversion R1; subst. destruct Ie as [-> | Ie].
    + apply (H2 H4 m n); [apply Fi|exact In_].
    + apply (IH H3 H5 Ie ml); [apply Fi|cbn in L; lia].
  - apply in_app_iff in I. destruct Fi. destruct I; [eapply IHe1|eapply IHe2]; try eassumption; tauto.
Qed.

Theorem code_run : forall (A : arith) (E : env A) rb names e t v,
  (forall n, In n (tree_names e) -> In n names) -> Z.of_nat (length names) < 2147483648 ->
  shape e -> S_Eval.fits E rb [] e -> size e < 32768 -> steady false [] e = true ->
  value A E rb t [] e t = Ok v ->
  exists code0 code, encode rb names (rpn e ++ [A_EOE]) = Ok code0 /\
  link_sample (s_start (smp E)) code0 = Ok code /\ 0 < len code /\
  forall st, tainted A st = false -> goes E names t code t st (v :: st).
Proof.
  intros A E rb names e t v Nn Nl R Fi Sz St V.
  pose proof (fits_well_made E rb e R [] Fi) as W.
  assert (Nd : named names e) by (apply named_all; assumption).
  destruct (steady_encodable e R false [] St) as [En Li].
  pose proof (bytes_len rb names (s_start (smp E)) false e W []) as L0.
  pose proof (bytes_len rb names (s_start (smp E)) true e W []) as L1.
  assert (Pos : 0 < size e).
  { destruct e; cbn [size].
    1: destruct l; cbn; lia. all: try (pose proof (func_size_pos f)); try pose proof (size_pos e); try (pose proof (sizes_pos args)); try lia.
    - clear - R. cbn [shape] in R. revert R. generalize e. clear. intros e. induction e using ex_ind2; cbn [shape size]; intros R.
      + destruct l; cbn; lia. + auto. + apply IHe; tauto. + pose proof (func_size_pos f). pose proof (size_pos e). lia.
      + pose proof (func_size_pos f). pose proof (sizes_pos args). lia. + pose proof (size_pos e1). pose proof (size_pos e2). lia.
    - clear - R. cbn [shape] in R. destruct R as [R _]. revert R. generalize e. clear. intros e. induction e using ex_ind2; cbn [shape size]; intros R.
      + destruct l; cbn; lia. + auto. + apply IHe; tauto. + pose proof (func_size_pos f). pose proof (size_pos e). lia.
      + pose proof (func_size_pos f). pose proof (sizes_pos args). lia. + pose proof (size_pos e1). pose proof (size_pos e2). lia.
    - pose proof (size_pos e1). pose proof (size_pos e2). lia. }
  assert (Ec : encode rb names (rpn e ++ [A_EOE]) = Ok (bytes rb names (s_start (smp E)) false [] e)).
  { unfold encode. rewrite <- atoms_nil. rewrite (emit_ok rb names (s_start (smp E)) e R En W Sz [] (fits_dates E rb e [] Fi)).
    cbn [emit_all app rbind]. destruct (bytes rb names (s_start (smp E)) false [] e); [|reflexivity].
    rewrite len_nil in L0. lia. }
  exists (bytes rb names (s_start (smp E)) false [] e), (bytes rb names (s_start (smp E)) true [] e).
  split; [exact Ec|]. split; [|split; [lia|]].
  - unfold link_sample.
    replace (to_short (Z.of_nat (length (bytes rb names (s_start (smp E)) false [] e)))) with (size e).
    2:{ rewrite to_short_id; [symmetry; exact L0|]. unfold len in L0. rewrite L0. unfold short_range. lia. }
    destruct (link_ok E rb names e W Sz Nd [] Fi Li) as [_ Lk].
    specialize (Lk [] [] (size e) (Ok (bytes rb names (s_start (smp E)) true [] e))).
    cbn [app] in Lk. rewrite !app_nil_r in Lk. rewrite len_nil, L0, Z.add_0_l in Lk.
    apply Lk; [lia| |].
    + intros n Hn. destruct n as [|n]; [lia|]. cbn [link]. rewrite Z.leb_refl. reflexivity.
    + rewrite <- L0. unfold len. lia.
  - intros st T. destruct (all_run E rb names t e false [] t v st St) as (v' & G & D); auto.
    + repeat split; assumption.
    + congruence.
    + destruct D as [-> | (D & _)]; [exact G|congruence].
Qed.

Theorem code_ok : forall (A : arith) (E : env A) rb e t v,
  shape e -> S_Eval.fits E rb [] e -> size e < 32768 -> steady false [] e = true ->
  value A E rb t [] e t = Ok v ->
  let names := names_of (rpn e ++ [A_EOE]) in
  exists code0 code, encode rb names (rpn e ++ [A_EOE]) = Ok code0 /\ link_names E names = true /\
  link_sample (s_start (smp E)) code0 = Ok code /\ 0 < len code /\
  forall st, tainted A st = false -> goes E names t code t st (v :: st).
Proof.
  intros A E rb e t v R Fi Sz St V names.
  assert (Nn : forall n, In n names <-> In n (tree_names e)).
  { intros n. unfold names, names_of. rewrite add_names_spec, flat_map_app. cbn [flat_map atom_name]. rewrite app_nil_r, names_rpn.
    cbn [In]. tauto. }
  assert (Nl : Z.of_nat (length names) < 2147483648).
  { unfold names, names_of. rewrite flat_map_app. cbn [flat_map atom_name app]. rewrite app_nil_r, names_rpn.
    pose proof (add_names_len (tree_names e) []). pose proof (names_size e). cbn [length] in *. lia. }
  destruct (code_run A E rb names e t v (fun n I => proj2 (Nn n) I) Nl R Fi Sz St V) as (code0 & code & Q1 & Q2 & Q3).
  exists code0, code. split; [exact Q1|]. split; [|split; assumption].
  apply forallb_forall. intros n I. apply Nn in I. apply (fits_names E rb e R [] n Fi I).
Qed.

Theorem evaluate_ok : forall (A : arith) (E : env A) rb text e last t v,
  reading e -> lex text = written e ++ [last] -> last = T_EOF \/ last = T_EOE ->
  S_Eval.fits E rb [] e -> size e < 32768 -> steady false [] e = true ->
  value A E rb t [] e t = Ok v -> evaluate A E rb text t = Ok v.
Proof.
  intros A E rb text e last t v R Lx La Fi Sz St V. unfold evaluate.
  replace (fst (compile_text text [])) with (C_ok (rpn e ++ [A_EOE]))
    by (unfold compile_text; rewrite Lx, (compile_written e last R La []); reflexivity).
  destruct (code_ok A E rb e t v (reading_shape e R) Fi Sz St V) as (code0 & code & Ec & Ln & Lk & Pc & G).
  rewrite Ec. cbn [rbind]. rewrite Ln, Lk. cbn [rbind]. specialize (G [] eq_refl).
  unfold L_exec. destruct code as [|b0 l0] eqn:Eb; [rewrite len_nil in Pc; lia|].
  rewrite <- Eb in *. pose proof (goes_sub E _ t _ _ _ G [] [] (S (length code))) as Q.
  cbn [app] in Q. rewrite app_nil_r in Q. rewrite len_nil, Z.add_0_l in Q. apply Q. unfold len. lia.
Qed.
