(** The exchanges, by names. *)
From Coq Require Import ZArith Ascii String List Bool Lia Permutation Relations.
From Verif Require Import M_Base M_Names M_Lex M_Bytes M_Order M_Exo2endo S_Order S_Exo2endo L_Names L_Order L_Order3 L_Order4 L_Order5 L_Exo.
Import ListNotations.
Open Scope Z_scope.

Lemma link_model_good vars scl eqs m : NoDup (map fst eqs) -> link_model vars scl eqs = Ok (Some m) -> good vars eqs m.
Proof.
  intros NE E. unfold link_model in E. destruct (link_loop_ok vars scl eqs [] (mkM [] [] (map (fun _ => -1) vars))) as (r & E' & H).
  - constructor; unfold endo_of; cbn [objs posxk posrev length map]; auto.
    + apply map_length.
    + intros v e Hv. left. apply nth_error_In, in_map_iff in Hv as (? & <- & _). reflexivity.
    + intros [|k] v Hv; discriminate.
    + intros [|i] n ns Hi; discriminate.
  - exact NE.
  - rewrite len_nil in E'. rewrite E in E'. inversion E'; subst. exact (H m eq_refl).
Qed.

Section Names.
Variable vars : list str.
Variable eqs : list (str * list str).
Variable m : model.
Hypothesis NV : NoDup vars.
Hypothesis NE : NoDup (map fst eqs).
Hypothesis G : good vars eqs m.

Lemma fresh_m : fresh eqs m.
Proof. exact (good_fresh vars eqs m NV NE G). Qed.
Lemma linked_m : linked m. Proof. apply fresh_m. Qed.
Lemma exact_m : exact_tables m. Proof. apply fresh_m. Qed.

Lemma endo_names k v : endo_of m k v <-> exists n ns, nth_error eqs k = Some (n, ns) /\ v = pos_of vars n.
Proof.
  unfold endo_of. rewrite (g_xk _ _ _ G), nth_error_map. split.
  - destruct (nth_error eqs k) as [[n ns]|]; [|discriminate]. cbn. intros H; inversion H. eauto.
  - intros (n & ns & -> & ->). reflexivity.
Qed.
Lemma endo_name_at k v n ns : endo_of m k v -> nth_error eqs k = Some (n, ns) -> nth_error vars (Z.to_nat v) = Some n /\ 0 <= v.
Proof.
  intros He Hk. assert (Hv : 0 <= v) by (destruct (l_endo m linked_m k v He); assumption).
  apply endo_names in He as (n' & ns' & Hk' & ->). rewrite Hk in Hk'. inversion Hk'; subst. split; [|exact Hv]. now apply pos_of_nonneg.
Qed.
Lemma names_m k v : endo_of m k v -> exists nm, name_at vars v = Ok nm /\
  exists o, nth_error (objs m) k = Some o /\ objs_of (map fst eqs) m nm = Ok o.
Proof.
  intros He. assert (He' := He). apply endo_names in He' as (n & ns & Hk & _). destruct (endo_name_at k v n ns He Hk) as [A B].
  exists n. split.
  - unfold name_at. destruct (Z.ltb_spec v 0); [lia|]. now rewrite A.
  - destruct (g_objs _ _ _ G k n ns Hk) as (o & Ho & _). exists o. split; [exact Ho|]. unfold objs_of.
    rewrite (pos_of_nth (map fst eqs) k n NE) by (rewrite nth_error_map, Hk; reflexivity).
    destruct (Z.ltb_spec (Z.of_nat k) 0); [lia|]. now apply getz_some.
Qed.
Lemma occurs_names k n : In n vars -> occurs m k (pos_of vars n) <-> has_var eqs k n.
Proof.
  intros Hin. assert (Hp := pos_of_in vars n Hin). assert (Hn := pos_of_nonneg vars n Hp). split.
  - intros (o & w & Ho & Hio & C). assert (Hl := nth_lt _ _ _ Ho). rewrite (g_lo _ _ _ G) in Hl.
    destruct (nth_ex eqs k Hl) as [[nk names] Hk]. destruct (g_objs _ _ _ G k nk names Hk) as (o' & Ho' & Em & P).
    assert (o' = o) by congruence. subst o'. destruct (P w _ Hio C) as [Q1 Q2]. rewrite Q1 in Q2. apply pos_of_nonneg in Q2.
    rewrite <- Q1 in Q2. assert (w = n) by congruence. subst w. exists nk, names. split; [exact Hk|]. split; [|exact C].
    rewrite <- Em. apply in_map_iff. eexists. split; [|exact Hio]. reflexivity.
  - intros (nk & names & Hk & Hn' & C). destruct (g_objs _ _ _ G k nk names Hk) as (o & Ho & Em & P).
    rewrite <- Em in Hn'. apply in_map_iff in Hn' as ([w p] & Ew & Hin'). cbn in Ew. subst w. destruct (P n p Hin' C) as [-> _].
    exists o, n. auto.
Qed.

Lemma has_var_in k n : has_var eqs k n -> In n vars.
Proof.
  intros (nk & names & Hk & Hn & C). destruct (g_objs _ _ _ G k nk names Hk) as (o & Ho & Em & P).
  rewrite <- Em in Hn. apply in_map_iff in Hn as ([w p] & Ew & Hin'). cbn in Ew. subst w. destruct (P n p Hin' C) as [Q1 Q2].
  rewrite Q1 in Q2. apply pos_of_nonneg in Q2. now apply nth_error_In in Q2.
Qed.

Lemma eq_in_vars e n : named eqs e n -> In n vars.
Proof.
  intros [ns Hk]. assert (He : endo_of m e (pos_of vars n)) by (apply endo_names; eauto).
  destruct (endo_name_at e _ n ns He Hk) as [A _]. now apply nth_error_In in A.
Qed.

Lemma named_dec n : (exists e, named eqs e n) \/ ~ exists e, named eqs e n.
Proof.
  destruct (in_dec (list_eq_dec Ascii.ascii_dec) n (map fst eqs)) as [H|H].
  - left. apply in_map_iff in H as ([n' ns] & E & H). cbn in E. subst n'. apply In_nth_error in H as [e He]. exists e, ns. exact He.
  - right. intros (e & ns & He). apply H. apply in_map_iff. exists (n, ns). split; [reflexivity|]. now apply nth_error_In in He.
Qed.
Lemma named_in n : In n (map fst eqs) <-> exists e, named eqs e n.
Proof.
  split.
  - intros H. apply in_map_iff in H as ([n' ns] & E & H). cbn in E. subst n'. apply In_nth_error in H as [e He]. exists e, ns. exact He.
  - intros (e & ns & He). apply in_map_iff. exists (n, ns). split; [reflexivity|]. now apply nth_error_In in He.
Qed.
Lemma named_unique e k n : named eqs e n -> named eqs k n -> e = k.
Proof.
  intros [ns He] [ns' Hk]. apply (proj1 (NoDup_nth_error (map fst eqs)) NE).
  - apply nth_lt in He. now rewrite map_length.
  - rewrite !nth_error_map, He, Hk. reflexivity.
Qed.

(** Refused, or done with the tables described by [swapped]. *)
Lemma exchange_cases endo exo :
  (exchange vars (map fst eqs) m endo exo = Ok None /\
     (~ (exists e, named eqs e endo) \/ ~ In exo vars \/ (exists e, named eqs e exo) \/
      exists e, named eqs e endo /\ forall k, clos_refl_trans nat (reads eqs) e k -> ~ has_var eqs k exo)) \/
  (exists e m' path', exchange vars (map fst eqs) m endo exo = Ok (Some m') /\ named eqs e endo /\ In exo vars /\
     ~ (exists k, named eqs k exo) /\
     swapped m (pos_of vars exo) (repeat false (length (objs m))) path' e (pos_of vars endo) m' /\
     (on path' e -> clos_trans nat (goes m (pos_of vars exo)) e e)).
Proof.
  assert (L := linked_m). assert (X := exact_m). unfold exchange.
  destruct (Z.ltb_spec (pos_of vars endo) 0) as [H1|H1].
  { left. split; [reflexivity|]. left. intros (e & He). apply eq_in_vars, pos_of_in in He. lia. }
  destruct (Z.ltb_spec (pos_of vars exo) 0) as [H2|H2].
  { left. split; [reflexivity|]. right. left. intros He. apply pos_of_in in He. lia. }
  assert (Iexo : In exo vars) by (apply pos_of_nonneg in H2; now apply nth_error_In in H2).
  assert (Iendo : In endo vars) by (apply pos_of_nonneg in H1; now apply nth_error_In in H1).
  assert (B : forall n, -1 <= pos_of vars n < len (posrev m)).
  { intros n. assert (Q := pos_of_min vars n). unfold len in *. rewrite (g_lr _ _ _ G). exact Q. }
  assert (Same : forall n k, In n vars -> endo_of m k (pos_of vars n) -> named eqs k n).
  { intros n k Hin Hk. assert (Hk' := Hk). apply endo_names in Hk' as (n' & ns & Hn' & E). destruct (endo_name_at k _ n' ns Hk Hn') as [A _].
    assert (A2 := pos_of_nonneg vars n (pos_of_in vars n Hin)). assert (n' = n) by congruence. subst n'. exists ns. exact Hn'. }
  destruct (gep_cases m L X (pos_of vars endo) (B endo)) as (q & Eq & [[Hq0 Hq1]|(e & -> & He)]).
  { left. unfold exo_to_endo. rewrite Eq. cbn [rbind]. destruct (Z.ltb_spec q 0); [|lia]. cbn [rbind fst snd]. split; [reflexivity|].
    left. intros (e & ns & He). apply (Hq1 e). apply endo_names. eauto. }
  assert (Ne : named eqs e endo) by (apply Same; auto).
  destruct (gep_cases m L X (pos_of vars exo) (B exo)) as (q & Eq' & [[Hq0 Hq1]|(k & -> & Hk)]).
  2:{ left. unfold exo_to_endo. rewrite Eq. cbn [rbind]. destruct (Z.ltb_spec (Z.of_nat e) 0); [lia|]. rewrite Eq'. cbn [rbind].
      destruct (Z.leb_spec 0 (Z.of_nat k)); [|lia]. cbn [rbind fst snd]. split; [reflexivity|].
      right. right. left. exists k. now apply Same. }
  assert (Nx : ~ exists k, named eqs k exo). { intros (k & ns & Hk). apply (Hq1 k). apply endo_names. eauto. }
  destruct (exo_to_endo_ok vars (map fst eqs) m (pos_of vars exo) L X names_m) with (e := e) (v := pos_of vars endo)
    as (m' & ok & E & T & F); [assert (Q := B exo); lia|exact Hq1|exact He|].
  rewrite E. cbn [rbind fst snd]. destruct ok.
  - right. destruct (T eq_refl) as (path' & W & R). exists e, m', path'. auto 10.
  - left. split; [reflexivity|]. right. right. right. exists e. split; [exact Ne|]. destruct (F eq_refl) as [_ F2].
    intros k Hk Hv. apply (F2 k); [|now apply occurs_names].
    destruct fresh_m as (_ & _ & _ & U & _). clear -Hk U. induction Hk; [apply rt_step; now apply U|apply rt_refl|eapply rt_trans; eauto].
Qed.

Lemma goes_names exo i k : In exo vars -> goes m (pos_of vars exo) i k <-> reads_without eqs exo i k.
Proof.
  intros Hin. destruct fresh_m as (_ & _ & _ & U & _). unfold goes, reads_without. rewrite U, occurs_names by exact Hin. reflexivity.
Qed.

Lemma exchange_refused endo exo :
  (exists r, exchange vars (map fst eqs) m endo exo = Ok r) /\
  (exchange vars (map fst eqs) m endo exo = Ok None <->
     ~ (exists e, named eqs e endo) \/ ~ In exo vars \/ (exists e, named eqs e exo) \/
     exists e, named eqs e endo /\ forall k, clos_refl_trans nat (reads eqs) e k -> ~ has_var eqs k exo).
Proof.
  destruct (exchange_cases endo exo) as [[E R]|(e & m' & path' & E & Ne & Ie & Nx & W & C)].
  - split; [eauto|]. split; auto.
  - split; [eauto|]. split; [rewrite E; discriminate|]. intros Q. exfalso.
    destruct Q as [Q|[Q|[Q|(e' & Q1 & Q2)]]]; [apply Q; eauto|contradiction|contradiction|].
    assert (e' = e) by now apply (named_unique e' e endo). subst e'.
    destruct (w_reach _ _ _ _ _ _ _ W) as (k & K1 & K2). apply (Q2 k); [|now apply occurs_names].
    destruct fresh_m as (_ & _ & _ & U & _). clear -K1 U. induction K1 as [x y [K _]| |]; [apply rt_step; now apply U|apply rt_refl|eapply rt_trans; eauto].
Qed.

Lemma swapped_linked x path path' e v m' : swapped m x path path' e v m' -> linked m'.
Proof.
  intros W. assert (L := linked_m). constructor.
  - rewrite (w_len _ _ _ _ _ _ _ W), (w_objs _ _ _ _ _ _ _ W). exact (l_len m L).
  - exact (w_rev _ _ _ _ _ _ _ W).
  - intros y p Hy. rewrite (w_objs _ _ _ _ _ _ _ W). now apply (w_revr _ _ _ _ _ _ _ W) in Hy.
  - intros i y Hy. unfold len. rewrite (w_lenr _ _ _ _ _ _ _ W). apply (l_occ m L i y). unfold occurs in *.
    now rewrite (w_objs _ _ _ _ _ _ _ W) in Hy.
Qed.

Lemma exchange_done endo exo m' : exchange vars (map fst eqs) m endo exo = Ok (Some m') ->
  linked m' /\ objs m' = objs m /\
  (forall k, (k < length eqs)%nat -> exists n, solved_for vars m' k n) /\
  (forall i k n, solved_for vars m' i n -> solved_for vars m' k n -> i = k) /\
  (forall k n, solved_for vars m' k n -> named eqs k n \/ has_var eqs k n) /\
  exists d, In d (map fst eqs) /\
    (forall n, (exists k, solved_for vars m' k n) <-> n = exo \/ (In n (map fst eqs) /\ n <> d)) /\
    (forall e, named eqs e endo -> ~ clos_trans nat (reads_without eqs exo) e e -> d = endo).
Proof.
  intros E. destruct (exchange_cases endo exo) as [[E' _]|(e & m2 & path' & E' & Ne & Ie & Nx & W & C)]; [congruence|].
  rewrite E in E'. inversion E'; subst m2. clear E'. assert (L := linked_m). assert (L' := swapped_linked _ _ _ _ _ _ W).
  split; [exact L'|]. split; [exact (w_objs _ _ _ _ _ _ _ W)|].
  assert (Val : forall k w, endo_of m' k w -> exists n, nth_error vars (Z.to_nat w) = Some n).
  { intros k w Hw. destruct (w_rev _ _ _ _ _ _ _ W k w Hw) as [_ Q]. apply nth_lt in Q. rewrite (w_lenr _ _ _ _ _ _ _ W), (g_lr _ _ _ G) in Q.
    destruct (nth_ex vars _ Q) as [n Hn]. eauto. }
  assert (Pos : forall n x, nth_error vars x = Some n -> pos_of vars n = Z.of_nat x) by (intros n x; now apply pos_of_nth).
  assert (SF : forall k n, solved_for vars m' k n <-> In n vars /\ endo_of m' k (pos_of vars n)).
  { intros k n. split.
    - intros (x & Hx & Hn). rewrite (Pos n x Hn). split; [now apply nth_error_In in Hn|exact Hx].
    - intros [Hin Hx]. assert (Q := pos_of_in vars n Hin). exists (Z.to_nat (pos_of vars n)). split; [|now apply pos_of_nonneg].
      replace (Z.of_nat (Z.to_nat (pos_of vars n))) with (pos_of vars n) by lia. exact Hx. }
  assert (ES : forall k w, endo_of m' k w -> exists n, nth_error vars (Z.to_nat w) = Some n /\ pos_of vars n = w).
  { intros k w Hw. destruct (Val k w Hw) as [n Hn]. exists n. split; [exact Hn|]. rewrite (Pos n _ Hn).
    destruct (w_rev _ _ _ _ _ _ _ W k w Hw) as [Q _]. lia. }
  assert (OldE : forall k n, In n vars -> endo_of m k (pos_of vars n) -> named eqs k n).
  { intros k n Hin Hk. assert (Hk' := Hk). apply endo_names in Hk' as (n' & ns & Hn' & _). destruct (endo_name_at k _ n' ns Hk Hn') as [A _].
    assert (A2 := pos_of_nonneg vars n (pos_of_in vars n Hin)). assert (n' = n) by congruence. subst n'. exists ns. exact Hn'. }
  split; [|split; [|split]].
  - intros k Hk. assert (Hl : (k < length (posxk m'))%nat).
    { rewrite (w_len _ _ _ _ _ _ _ W), (l_len m L), (g_lo _ _ _ G). exact Hk. }
    destruct (nth_ex _ _ Hl) as [w Hw]. destruct (ES k w Hw) as (n & Hn & Ep). exists n. apply SF.
    split; [now apply nth_error_In in Hn|]. rewrite Ep. exact Hw.
  - intros i k n Hi Hk. apply SF in Hi as [_ Hi], Hk as [_ Hk].
    destruct (w_rev _ _ _ _ _ _ _ W i _ Hi) as [_ A]. destruct (w_rev _ _ _ _ _ _ _ W k _ Hk) as [_ B]. rewrite A in B. inversion B. lia.
  - intros k n Hk. apply SF in Hk as [Hin Hk]. destruct (w_occ _ _ _ _ _ _ _ W k _ Hk) as [Q|Q]; [left; now apply OldE|right].
    now apply occurs_names.
  - destruct (w_drop _ _ _ _ _ _ _ W) as (d & [kd D1] & D2 & [kx D3] & D4 & D5).
    assert (D1' := D1). apply endo_names in D1' as (dn & dns & Hd & Ed). exists dn.
    assert (Ndn : named eqs kd dn) by (exists dns; exact Hd).
    assert (Idn := eq_in_vars kd dn Ndn).
    assert (Inj : forall a b, In a vars -> In b vars -> pos_of vars a = pos_of vars b -> a = b).
    { intros a b Ha Hb Hab. apply pos_of_in, pos_of_nonneg in Ha. apply pos_of_in, pos_of_nonneg in Hb. congruence. }
    split; [apply named_in; eauto|]. split.
    + intros n. split.
      * intros [k Hk]. apply SF in Hk as [Hin Hk]. destruct (Z.eq_dec (pos_of vars n) (pos_of vars exo)) as [Q|Q].
        { left. now apply Inj. }
        right. assert (Q2 : pos_of vars n <> d). { intros Q2. apply (D2 k). now rewrite <- Q2. }
        assert (Q3 : exists k, endo_of m k (pos_of vars n)) by (apply D4; eauto). destruct Q3 as [k3 Q3].
        split; [apply named_in; exists k3; now apply OldE|]. intros ->. congruence.
      * intros [->|[Hin Hn]]; [exists kx; apply SF; auto|]. apply named_in in Hin as (k & Hk).
        assert (Hin := eq_in_vars k n Hk). destruct Hk as [ns Hk].
        assert (Q : exists k, endo_of m' k (pos_of vars n)).
        { apply D4.
          - intros Q. apply Hn. apply Inj; auto. congruence.
          - intros Q. apply Nx. exists k. assert (n = exo) by now apply Inj. subst n. exists ns. exact Hk.
          - exists k. apply endo_names. eauto. }
        destruct Q as [k' Hk']. exists k'. apply SF. auto.
    + intros e' He' Hc. assert (e' = e) by now apply (named_unique e' e endo). subst e'.
      apply Inj; [exact Idn|now apply (eq_in_vars e)|]. rewrite <- Ed. apply D5. right. intros Hon. apply Hc. apply C in Hon.
      revert Hon. apply clos_mono. intros x y. now apply goes_names.
Qed.
End Names.

Lemma order_after_exchange vars scl eqs m endo exo m' dbe given sort passes :
  NoDup vars -> NoDup (map fst eqs) -> link_model vars scl eqs = Ok (Some m) ->
  exchange vars (map fst eqs) m endo exo = Ok (Some m') -> sort <> SORT_NONE ->
  exists o, order m' dbe given sort passes = Ok o /\ Permutation (o_order o) (map Z.of_nat (seq 0 (length eqs))) /\
    forall i k n a b, i <> k -> has_var eqs i n -> solved_for vars m' k n -> at_rank o a i -> at_rank o b k ->
      (Z.of_nat a < o_pre o -> (b < a)%nat) /\ (o_pre o + o_inter o <= Z.of_nat b -> (b < a)%nat).
Proof.
  intros NV NE E H Hs. assert (G := link_model_good vars scl eqs m NE E).
  destruct (exchange_done vars eqs m NV NE G endo exo m' H) as (L' & Eo & _).
  destruct (order_permutation m' dbe given sort passes L' Hs) as (o & O & P & _). exists o. split; [exact O|]. split.
  - unfold equations in P. rewrite Eo, (g_lo _ _ _ G) in P. exact P.
  - intros i k n a b Hne Hv (x & Hx & Hn) Ha Hb. apply (order_respects m' dbe given sort passes o L' Hs O i k a b); auto.
    split; [exact Hne|]. exists (Z.of_nat x). split; [exact Hx|].
    assert (Q : occurs m i (pos_of vars n)) by (apply (occurs_names vars eqs m G); [now apply nth_error_In in Hn|exact Hv]).
    rewrite (pos_of_nth vars x n NV Hn) in Q. unfold occurs in *. now rewrite Eo.
Qed.
