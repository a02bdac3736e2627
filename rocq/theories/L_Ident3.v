(** The variables read before the execution of identities. *)
From Coq Require Import ZArith Ascii String List Bool Lia Permutation.
From Verif Require Import M_Base M_Time M_Names M_Lex M_Compile M_Bytes M_Exec M_Vars M_Ident S_Vars S_Ident L_Names L_Vars2 L_Same L_Ident.
Import ListNotations.
Open Scope Z_scope.

Lemma mem_in n l : mem n l = true <-> In n l.
Proof.
  unfold mem. rewrite existsb_exists. split; [intros (x & I & E)|intros I; exists n; split; auto].
  - apply str_eqb_iff in E. subst. exact I.
  - apply str_eqb_iff. reflexivity.
Qed.
Lemma mem_false n l : mem n l = false <-> ~ In n l.
Proof. rewrite <- mem_in. destruct (mem n l); split; congruence. Qed.
Lemma get_app {X} n (l l' : list (str * X)) : get n (l ++ l') = match get n l with Some x => Some x | None => get n l' end.
Proof. induction l as [|[k x] l IH]; cbn [app get]; [reflexivity|]. destruct (str_eqb k n); auto. Qed.
Lemma get_in {X} n (l : list (str * X)) : (exists x, get n l = Some x) <-> In n (map fst l).
Proof.
  induction l as [|[k x] l IH]; cbn [get map In fst]; [split; [intros [? H]; discriminate|intros []]|].
  destruct (str_eqb_spec k n); [split; eauto|]. rewrite IH. tauto.
Qed.
Lemma get_none {X} n (l : list (str * X)) : get n l = None <-> ~ In n (map fst l).
Proof. rewrite <- get_in. destruct (get n l); split; try congruence; [intros H; exfalso; eauto|intros _ [x H]; congruence]. Qed.
Lemma get_flat {X Y} (V : list (str * X)) (h : X -> Y) m l :
  get m (flat_map (fun x => match get x V with Some f => [(x, h f)] | None => [] end) l) =
  if mem m l then option_map h (get m V) else None.
Proof.
  induction l as [|k l IH]; [reflexivity|]. cbn [flat_map]. rewrite get_app, IH. cbn [mem existsb].
  fold (mem m l). destruct (str_eqb_spec m k) as [<-|Q].
  - cbn [orb]. destruct (get m V) as [f|]; cbn [get option_map]; [|destruct (mem m l); reflexivity].
    destruct (str_eqb_spec m m); [reflexivity|congruence].
  - cbn [orb]. destruct (get k V) as [f|]; cbn [get]; [|reflexivity]. destruct (str_eqb_spec k m); [congruence|reflexivity].
Qed.
Lemma names_flat {X Y} (V : list (str * X)) (h : X -> Y) l : (forall x, In x l -> In x (map fst V)) ->
  map fst (flat_map (fun x => match get x V with Some f => [(x, h f)] | None => [] end) l) = l.
Proof.
  induction l as [|k l IH]; intros H; [reflexivity|]. cbn [flat_map]. rewrite map_app, IH by (intros x Hx; apply H; right; exact Hx).
  destruct (proj2 (get_in k V) (H k (or_introl eq_refl))) as [f ->]. reflexivity.
Qed.

Section R.
Context {A : arith}.
Notation F := (F A).

(** What is read so far from the sources [pre]. *)
Record loaded_from (wanted : list str) (vs : sample) (ws : db A) (pre : list (source A)) (loaded : list (str * (Z -> F))) : Prop := {
  l_names : forall m, In m (map fst loaded) -> In m wanted;
  l_nodup : NoDup (map fst loaded);
  l_found : forall m, In m wanted ->
    match get m loaded, first_source ws pre m with
    | Some g, Some o => read_from vs (Some o) g
    | None, None => True
    | _, _ => False
    end
}.
Lemma first_snoc ws pre (f : source A) m : first_source ws (pre ++ [f]) m =
  match first_source ws pre m with
  | Some o => Some o
  | None => match content ws f with Some d => option_map (fun v => (d_smp d, v)) (get m (d_vars d)) | None => None end
  end.
Proof.
  induction pre as [|g pre IH]; cbn [app first_source].
  - destruct (content ws f) as [d|]; [|reflexivity]. destruct (get m (d_vars d)); reflexivity.
  - rewrite IH. destruct (content ws g) as [d|]; [|reflexivity]. destruct (get m (d_vars d)); reflexivity.
Qed.
Lemma nodup_filter {X} (f : X -> bool) l : NoDup l -> NoDup (filter f l).
Proof.
  induction 1 as [|x l I N IH]; cbn; [constructor|]. destruct (f x); auto. constructor; auto. rewrite filter_In. tauto.
Qed.
Lemma nodup_app {X} (a b : list X) : NoDup a -> NoDup b -> (forall x, In x a -> ~ In x b) -> NoDup (a ++ b).
Proof.
  induction 1 as [|x a I N IH]; intros Nb D; cbn [app]; [exact Nb|]. constructor.
  - rewrite in_app_iff. intros [H|H]; [contradiction|]. apply (D x); auto. left. reflexivity.
  - apply IH; auto. intros y Hy. apply D. right. exact Hy.
Qed.
Lemma position_not_ub s q : M_Time.position s q <> UB.
Proof.
  unfold M_Time.position. pose proof (difference_not_ub q (s_start s)). destruct (difference q (s_start s)); cbn [rbind]; try congruence.
  destruct (_ || _); discriminate.
Qed.
Lemma moved_read vs ts n a b f : real_sample vs -> real_sample ts -> overlap vs ts = Ok (n, a, b) ->
  read_from vs (Some (Some ts, f)) (moved A n a b f (fun _ => na A)).
Proof.
  intros Rv Rt O q i P. unfold moved, at_period.
  destruct (overlap_spec vs ts n a b Rv Rt O) as (N & Ha & Hb & La & Lb & Q).
  (* the symmetric statement: from the sample of the destination *)
  destruct (real_idx _ Rv) as (nb & Nv & Ev & Bv & Iv), (real_idx _ Rt) as (nb' & Nt & Et & Bt & It).
  destruct (overlap_cases vs ts Rv Rt) as [[_ X]|(E & nb2 & Nb2 & [[_ X]|[Le X]])]; try congruence.
  assert (nb2 = nb') as -> by congruence. assert (nb' = nb) as -> by congruence.
  rewrite X in O. injection O as <- <- <-.
  rewrite (position_idx vs nb q Nv) in P. rewrite (position_idx ts nb q Nt). rewrite <- E.
  destruct (Ascii.eqb (per q) (per (s_start vs))); [|discriminate]. cbn zeta in *.
  destruct ((_ <? 0) || _) eqn:B in P; [discriminate|]. injection P as <-. apply orb_false_iff in B.
  destruct B as [B1 B2]. apply Z.ltb_ge in B1. apply Z.leb_gt in B2. unfold oend, ostart in *.
  destruct (Z.leb_spec (Z.max (idx nb (s_start vs)) (idx nb (s_start ts)) - idx nb (s_start vs)) (idx nb q - idx nb (s_start vs)));
  destruct (Z.ltb_spec (idx nb q - idx nb (s_start vs)) (Z.max (idx nb (s_start vs)) (idx nb (s_start ts)) - idx nb (s_start vs) +
     (Z.min (idx nb (s_end vs)) (idx nb (s_end ts)) - Z.max (idx nb (s_start vs)) (idx nb (s_start ts)) + 1))); cbn [andb];
  destruct (Z.ltb_spec (idx nb q - idx nb (s_start ts)) 0); destruct (Z.leb_spec (s_nb ts) (idx nb q - idx nb (s_start ts)));
    cbn [orb]; try lia; try reflexivity.
  f_equal. lia.
Qed.
Lemma read_db wanted vs ws pre f src loaded loaded' : real_sample vs -> NoDup wanted ->
  content ws f = Some src -> (forall s, d_smp src = Some s -> real_sample s) ->
  loaded_from wanted vs ws pre loaded -> read_vars_db A wanted vs src loaded = Ok (Some loaded') ->
  loaded_from wanted vs ws (pre ++ [f]) loaded'.
Proof.
  intros Rv Nw Cf Rs [L1 L2 L3] H. unfold read_vars_db in H.
  set (tc := filter (fun n => negb (mem n (map fst loaded)) && mem n (map fst (d_vars src))) wanted) in *.
  assert (Tc : forall m, In m tc <-> In m wanted /\ ~ In m (map fst loaded) /\ In m (map fst (d_vars src))).
  { intros m. unfold tc. rewrite filter_In, andb_true_iff, negb_true_iff, mem_false, mem_in. tauto. }
  assert (Hyp : (tc = [] /\ loaded' = loaded) \/
    exists ts n a b, d_smp src = Some ts /\ overlap vs ts = Ok (n, a, b) /\
      loaded' = loaded ++ flat_map (fun x => match get x (d_vars src) with
                                             | Some f => [(x, moved A n a b f (fun _ => na A))]
                                             | None => [] end) tc).
  { destruct tc eqn:Et; [left; split; [reflexivity|congruence]|]. right. destruct (d_smp src) as [ts|]; [|discriminate].
    destruct (overlap vs ts) as [[[n a] b]| |] eqn:O; try discriminate. cbn [rbind] in H.
    destruct (0 <? n); [|discriminate]. injection H as <-. exists ts, n, a, b. repeat split; auto. }
  clear H. destruct Hyp as [[Et ->]|(ts & n & a & b & Es & O & ->)].
  - split; auto. intros m I. specialize (L3 m I). rewrite first_snoc. destruct (get m loaded) as [g|] eqn:G.
    + destruct (first_source ws pre m); [exact L3|contradiction].
    + destruct (first_source ws pre m); [contradiction|]. rewrite Cf.
      destruct (get m (d_vars src)) eqn:Gm; cbn [option_map]; [|exact Logic.I].
      assert (In m tc) as K; [|rewrite Et in K; destruct K]. apply Tc. rewrite <- get_none. repeat split; auto. apply get_in. eauto.
  - pose proof (names_flat (d_vars src) (fun f => moved A n a b f (fun _ => na A)) tc (fun x Hx => proj2 (proj2 (proj1 (Tc x) Hx)))) as Nf.
    pose proof (get_flat (d_vars src) (fun f => moved A n a b f (fun _ => na A))) as Gf. cbn beta in Nf, Gf.
    split.
    + intros m. rewrite map_app, Nf, in_app_iff, Tc. intros [K|K]; [auto|tauto].
    + rewrite map_app, Nf. apply nodup_app; auto; [unfold tc; apply nodup_filter, Nw|]. intros x Hx. rewrite Tc. tauto.
    + intros m I. specialize (L3 m I). rewrite first_snoc, get_app, Cf.
      destruct (get m loaded) as [g|] eqn:G; [destruct (first_source ws pre m); [exact L3|contradiction]|].
      destruct (first_source ws pre m); [contradiction|].
      rewrite Gf. apply get_none in G.
      destruct (get m (d_vars src)) as [v|] eqn:Gm; cbn [option_map].
      * replace (mem m tc) with true; [|symmetry; apply mem_in, Tc; repeat split; auto; apply get_in; eauto].
        rewrite Es. apply moved_read; auto.
      * replace (mem m tc) with false; [exact Logic.I|]. symmetry. apply mem_false. rewrite Tc. apply get_none in Gm. tauto.
Qed.
(** Nothing more to read. *)
Lemma all_loaded wanted vs ws pre rest loaded : loaded_from wanted vs ws pre loaded ->
  (forall m, In m wanted -> In m (map fst loaded)) -> loaded_from wanted vs ws (pre ++ rest) loaded.
Proof.
  intros [L1 L2 L3] H. split; auto. intros m I. specialize (L3 m I).
  destruct (proj2 (get_in m loaded) (H m I)) as [g G]. rewrite G in *.
  assert (first_source ws (pre ++ rest) m = first_source ws pre m) as ->; [|exact L3].
  clear -L3. induction pre as [|f pre IH]; cbn [app first_source] in *; [contradiction|].
  destruct (content ws f) as [d|]; auto. destruct (get m (d_vars d)); auto.
Qed.
Lemma read_all wanted vs ws : real_sample vs -> NoDup wanted -> forall files pre loaded loaded',
  (forall f d s, In f files -> content ws f = Some d -> d_smp d = Some s -> real_sample s) ->
  loaded_from wanted vs ws pre loaded -> read_sources A wanted vs ws files loaded = Ok (Some loaded') ->
  loaded_from wanted vs ws (pre ++ files) loaded'.
Proof.
  intros Rv Nw. induction files as [|f files IH]; intros pre loaded loaded' Rs L H; cbn [read_sources] in H.
  - injection H as <-. rewrite app_nil_r. exact L.
  - destruct (Nat.ltb_spec (length loaded) (length wanted)) as [Lt|Ge].
    2:{ injection H as <-. apply (all_loaded wanted vs ws pre (f :: files)); auto. intros m I.
        assert (incl wanted (map fst loaded)) as K; [|apply K, I].
        apply NoDup_length_incl; [apply (l_nodup _ _ _ _ _ L)|rewrite map_length; exact Ge|]. intros x Hx. apply (l_names _ _ _ _ _ L x Hx). }
    assert (K : forall l1, match f with S_ws => read_vars_db A wanted vs ws loaded | S_file d => read_vars_file A wanted vs d loaded end = Ok (Some l1) ->
                loaded_from wanted vs ws (pre ++ [f]) l1).
    { intros l1 K. destruct f as [|d].
      - eapply read_db; eauto; [reflexivity|]. intros s. apply (Rs S_ws); [left; reflexivity|reflexivity].
      - unfold read_vars_file in K. destruct (forallb _ wanted) eqn:Fb.
        + injection K as <-. apply all_loaded; auto. intros m I. rewrite forallb_forall in Fb. apply mem_in, Fb, I.
        + destruct d as [src|]; [|discriminate]. assert (read_vars_db A wanted vs src loaded = Ok (Some l1)) as K' by (destruct (d_vars src); [discriminate|exact K]).
          eapply read_db; eauto; [reflexivity|]. intros s. apply (Rs (S_file (Some src))); [left; reflexivity|reflexivity]. }
    destruct (match f with S_ws => _ | S_file d => _ end) as [[l1|]| |]; try discriminate. cbn [rbind] in H.
    change (f :: files) with ([f] ++ files). rewrite app_assoc. eapply IH; eauto. intros g d s Ig. apply Rs. right. exact Ig.
Qed.
Theorem read_vars_spec all wanted vs ws files vars : real_sample vs -> NoDup wanted -> real_samples ws files ->
  read_vars A all wanted vs ws files = Ok (Some vars) -> forall m, In m wanted ->
  exists g, get m vars = Some g /\ read_from vs (first_source ws (sources files) m) g /\
    (first_source ws (sources files) m = None -> In m (map fst all)).
Proof.
  intros Rv Nw Rs H m I. unfold read_vars in H.
  assert (L0 : loaded_from wanted vs ws [] []).
  { split; cbn; [intros ? []|constructor|auto]. }
  assert (K : forall loaded, match files with [] => read_vars_db A wanted vs ws [] | _ => read_sources A wanted vs ws files [] end = Ok (Some loaded) ->
              loaded_from wanted vs ws (sources files) loaded).
  { intros loaded K. unfold real_samples in Rs. destruct files as [|f files].
    - change (sources []) with ([] ++ [@S_ws A]). eapply read_db; eauto; [reflexivity|]. intros s. apply (Rs S_ws); [left; reflexivity|reflexivity].
    - apply (read_all wanted vs ws Rv Nw (f :: files) [] [] loaded); auto. }
  destruct (match files with [] => _ | _ => _ end) as [[loaded|]| |]; try discriminate. cbn [rbind] in H.
  specialize (K loaded eq_refl). destruct K as [L1 L2 L3]. specialize (L3 m I).
  destruct (forallb _ _) eqn:Fb in H; [|discriminate]. injection H as <-. rewrite get_app.
  destruct (get m loaded) as [g|] eqn:G.
  - destruct (first_source ws (sources files) m) as [o|]; [|contradiction]. exists g. repeat split; auto; discriminate.
  - destruct (first_source ws (sources files) m) as [o|]; [contradiction|].
    assert (Im : In m (filter (fun n => negb (mem n (map fst loaded))) wanted)).
    { apply filter_In. split; auto. apply negb_true_iff, mem_false, get_none, G. }
    rewrite forallb_forall in Fb. specialize (Fb m Im). apply mem_in in Fb.
    exists (fun _ => na A). split; [|split; auto; intros q i _; reflexivity].
    clear -Im. induction (filter _ wanted) as [|k l IH]; [destruct Im|]. cbn [map get]. destruct (str_eqb_spec k m); [reflexivity|].
    apply IH. destruct Im; [contradiction|assumption].
Qed.

(** The lists of names. *)
Lemma add_names_in l : forall acc m, In m (M_Ident.add_names l acc) <-> In m l \/ In m acc.
Proof.
  induction l as [|n l IH]; intros acc m; cbn [M_Ident.add_names In]; [tauto|]. rewrite IH.
  destruct (mem n acc) eqn:M; [apply mem_in in M|rewrite in_app_iff; cbn [In]]; intuition congruence.
Qed.
Lemma add_names_nodup l : forall acc, NoDup acc -> NoDup (M_Ident.add_names l acc).
Proof.
  induction l as [|n l IH]; intros acc N; cbn [M_Ident.add_names]; auto. apply IH.
  destruct (mem n acc) eqn:M; auto. apply mem_false in M. apply nodup_app; auto; [repeat constructor; intros []|].
  intros x Hx [<-|[]]. contradiction.
Qed.
Lemma series_in all m : In m (series_list all) <->
  In m (map fst all) \/ (is_coefficient m = false /\ exists n text, In (n, text) all /\ In m (used text)).
Proof.
  unfold series_list. rewrite add_names_in, in_app_iff, filter_In, in_flat_map, negb_true_iff. cbn [In]. split.
  - intros [[H|[([n text] & H & K) C]]|[]]; auto. right. split; auto. exists n, text. auto.
  - intros [H|(C & n & text & H & K)]; auto. left. right. split; auto. exists (n, text). auto.
Qed.
Lemma scalar_in all m : In m (scalar_list all) <-> is_coefficient m = true /\ exists n text, In (n, text) all /\ In m (used text).
Proof.
  unfold scalar_list. rewrite add_names_in, filter_In, in_flat_map. cbn [In]. split.
  - intros [[([n text] & H & K) C]|[]]. split; auto. exists n, text. auto.
  - intros (C & n & text & H & K). left. split; auto. exists (n, text). auto.
Qed.
Lemma no_scalar wanted ws files : read_scls wanted ws files = true -> wanted = [].
Proof.
  assert (Z : read_scls_db wanted ws = 0%nat).
  { unfold read_scls_db. replace (filter _ wanted) with (@nil str); [reflexivity|]. symmetry.
    destruct (filter _ wanted) as [|x l] eqn:Q; [reflexivity|]. exfalso.
    assert (In x (filter (fun n => negb (mem n wanted) && mem n ws) wanted)) as I by (rewrite Q; left; reflexivity).
    apply filter_In in I. destruct I as [I K]. apply mem_in in I. rewrite I in K. discriminate. }
  unfold read_scls. assert (match files with [] => read_scls_db wanted ws | _ => fold_left (fun n (is_ws : bool) => (n + if is_ws then read_scls_db wanted ws else read_scls_file wanted)%nat) files 0%nat end = 0%nat) as ->.
  { destruct files as [|b files]; [exact Z|]. assert (forall l, fold_left (fun n (is_ws : bool) => (n + if is_ws then read_scls_db wanted ws else read_scls_file wanted)%nat) l 0%nat = 0%nat) as K; [|apply K].
    induction l as [|c l IH]; [reflexivity|]. cbn [fold_left].
    replace (0 + (if c then read_scls_db wanted ws else read_scls_file wanted))%nat with 0%nat; [exact IH|].
    destruct c; [rewrite Z|]; reflexivity. }
  destruct wanted; [reflexivity|discriminate].
Qed.
End R.
