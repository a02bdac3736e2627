(** The value of a formula depends only on the names it uses and on the positions of the sample. *)
From Coq Require Import ZArith Ascii String List Bool Lia.
From Verif Require Import M_Base M_Time M_Names M_Lex M_Compile M_Bytes M_Exec S_Ident.
Import ListNotations.
Open Scope Z_scope.

Lemma bind_ext {X Y} (a b : res X) (f g : X -> res Y) : a = b -> (forall x, f x = g x) -> rbind a f = rbind b g.
Proof. intros -> H. destruct b; cbn; auto. Qed.
Lemma if_ext {X} (c : bool) (a b a' b' : X) : a = a' -> b = b' -> (if c then a else b) = (if c then a' else b').
Proof. intros -> ->. reflexivity. Qed.

Section Ext.
Context {A : arith} {E E' : env A} (Sm : smp E = smp E').
Notation F := (F A).
Definition seq (s s' : Z -> res F) : Prop := forall u, s u = s' u.
Ltac step := repeat first
  [ reflexivity | assumption
  | match goal with H : seq ?s ?s' |- ?s _ = ?s' _ => apply H end
  | match goal with |- rbind _ _ = rbind _ _ => apply bind_ext; [|intros ?] end
  | match goal with |- (if _ then _ else _) = (if _ then _ else _) => apply if_ext end
  | match goal with |- (let '(_, _) := ?x in _) = _ => destruct x end
  | match goal with |- match ?x with Some _ => _ | None => _ end = _ => destruct x end ].

Lemma loop_ext {S} s s' (H : seq s s') js : forall (acc : S) f, loop A s js acc f = loop A s' js acc f.
Proof. induction js as [|j js IH]; intros; cbn [loop]; [reflexivity|]. rewrite H. step. apply IH. Qed.
Lemma loop2_ext {S} s s' r r' (H : seq s s') (K : seq r r') js : forall (acc : S) f, loop2 A s r js acc f = loop2 A s' r' js acc f.
Proof. induction js as [|j js IH]; intros; cbn [loop2]; [reflexivity|]. rewrite H, K. step. apply IH. Qed.
Lemma last_ext s s' (H : seq s s') js : last_num A s js = last_num A s' js.
Proof. induction js as [|j js IH]; cbn [last_num]; [reflexivity|]. rewrite H, IH. reflexivity. Qed.
Lemma mean_ext s s' (H : seq s s') a b : L_mean_of A s a b = L_mean_of A s' a b.
Proof. unfold L_mean_of. step. rewrite (loop_ext s s' H). reflexivity. Qed.
Lemma two_ext s s' (H : seq s s') t k : two_values A s t k = two_values A s' t k.
Proof. unfold two_values. step. Qed.
Lemma search_ext s s' (H : seq s s') keep js : forall stop l, search A s keep js stop l = search A s' keep js stop l.
Proof. induction js as [|j js IH]; intros; cbn [search]; [reflexivity|]. rewrite H. step. apply IH. Qed.
Lemma find_ext s s' (H : seq s s') x js : find_near A x s js = find_near A x s' js.
Proof. induction js as [|j js IH]; cbn [find_near]; [reflexivity|]. rewrite H, IH. reflexivity. Qed.
Lemma mapM_ext s s' (H : seq s s') js : mapM s js = mapM s' js.
Proof. induction js as [|j js IH]; cbn [mapM]; [reflexivity|]. rewrite H, IH. reflexivity. Qed.
Lemma calcvals_ext s s' (H : seq s s') t b : calcvals A E s t b = calcvals A E' s' t b.
Proof. unfold calcvals. rewrite Sm. step; rewrite (search_ext s s' H); reflexivity. Qed.

Context {s1 s1' s2 s2' : Z -> res F} (H1 : seq s1 s1') (H2 : seq s2 s2').
Lemma tfn_ext f nb t st : tfn_run A f nb s1 t st = tfn_run A f nb s1' t st.
Proof.
  destruct f; cbn [tfn_run]; try rewrite (two_ext s1 s1' H1); step;
    rewrite ?(two_ext s1 s1' H1), ?(loop_ext s1 s1' H1), ?(mean_ext s1 s1' H1), ?(last_ext s1 s1' H1); step;
    rewrite ?(loop_ext s1 s1' H1); reflexivity.
Qed.
Lemma covar_ext r r' q q' (H : seq r r') (K : seq q q') a b o : calc_covar A r q a b o = calc_covar A r' q' a b o.
Proof. unfold calc_covar. rewrite (mean_ext r r' H), (mean_ext q q' K). step. rewrite (loop2_ext r r' q q' H K). reflexivity. Qed.
Lemma corr_ext a b : calc_corr A s1 s2 a b = calc_corr A s1' s2' a b.
Proof. unfold calc_corr. rewrite (mean_ext s1 s1' H1), (mean_ext s2 s2' H2). step. rewrite (loop2_ext s1 s1' s2 s2' H1 H2). reflexivity. Qed.
Lemma acf_ext a b t : calc_acf A s1 s2 a b t = calc_acf A s1' s2' a b t.
Proof.
  unfold calc_acf. rewrite (mean_ext s2 s2' H2). step.
  - erewrite loop2_ext; [reflexivity|exact H2|intros u; apply H2].
  - rewrite (loop_ext s2 s2' H2). reflexivity.
Qed.
Lemma interpol_ext t : calc_interpol A E s1 t = calc_interpol A E' s1' t.
Proof. unfold calc_interpol. rewrite (calcvals_ext s1 s1' H1), Sm. step. Qed.
Lemma near_ext ok t : near A s2 ok t = near A s2' ok t. Proof. unfold near. step. Qed.
Lemma app_ext t : calc_app A E s1 s2 t = calc_app A E' s1' s2' t.
Proof. unfold calc_app. rewrite (calcvals_ext s1 s1' H1), Sm. step; apply near_ext. Qed.
Lemma dapp_ext t : calc_dapp A E s1 s2 t = calc_dapp A E' s1' s2' t.
Proof. unfold calc_dapp. rewrite (calcvals_ext s1 s1' H1), Sm. step; apply near_ext. Qed.
Lemma hp_ext o a b t : calc_hp A o s1 s2 a b t = calc_hp A o s1' s2' a b t.
Proof. unfold calc_hp. step. apply mapM_ext, H2. Qed.
Lemma mtfn_ext f nb t st : mtfn_run A E f nb s1 s2 t st = mtfn_run A E' f nb s1' s2' t st.
Proof.
  unfold mtfn_run. apply bind_ext; [reflexivity|]. intros [[a b] st']. apply bind_ext; [|reflexivity].
  destruct f; rewrite ?(covar_ext s1 s1' s1 s1' H1 H1), ?(covar_ext s1 s1' s2 s2' H1 H2);
    auto using corr_ext, acf_ext, interpol_ext, app_ext, dapp_ext, hp_ext.
  step. rewrite (find_ext s2 s2' H2). reflexivity.
Qed.
End Ext.

Lemma same_read {A} (E E' : env A) names n : same_on E E' names -> In n names ->
  scalar E n = scalar E' n /\
  match var_at E n, var_at E' n with
  | Some f, Some g => forall i, 0 <= i < s_nb (smp E) -> f i = g i
  | None, None => True
  | _, _ => False
  end.
Proof. intros (_ & H) I. exact (H n I). Qed.
Lemma exec_ext {A} (E E' : env A) names ct fuel : same_on E E' names -> forall code j e t s,
  exec A E names ct fuel code j e t s = exec A E' names ct fuel code j e t s.
Proof.
  intros Q. pose proof (proj1 Q) as Sm. induction fuel as [|n IH]; intros code j e t s; cbn [exec]; [reflexivity|].
  destruct (e <=? j); [reflexivity|]. destruct (j <? 0); [reflexivity|].
  apply bind_ext; [reflexivity|]. intros [i size]. destruct i.
  - apply IH.
  - apply IH.
  - destruct (name_at names pos) as [nm|] eqn:N; [|reflexivity].
    assert (In nm names) as I by (unfold name_at in N; destruct (pos <? 0); [discriminate|]; eapply nth_error_In, N).
    destruct (same_read E E' names nm Q I) as [-> _]. destruct (scalar E' nm); [|reflexivity]. destruct (num A f); [apply IH|reflexivity].
  - destruct (name_at names pos) as [nm|] eqn:N; [|reflexivity].
    assert (In nm names) as I by (unfold name_at in N; destruct (pos <? 0); [discriminate|]; eapply nth_error_In, N).
    destruct (same_read E E' names nm Q I) as [_ K]. destruct (var_at E nm) as [g|], (var_at E' nm) as [g'|]; try contradiction; [|reflexivity].
    rewrite IH. replace (read_var A E g ref p t) with (read_var A E' g' ref p t); [reflexivity|].
    unfold read_var. rewrite <- Sm.
    set (x := if year p =? 0 then _ else _). destruct (Z.leb_spec 0 x); [|reflexivity].
    destruct (Z.ltb_spec x (s_nb (smp E))); [|reflexivity]. cbn [andb]. symmetry. apply K. lia.
  - apply IH.
  - apply bind_ext; [reflexivity|]. intros; apply IH.
  - apply bind_ext; [reflexivity|]. intros; apply bind_ext; [reflexivity|]. intros. apply bind_ext; [reflexivity|]. intros; apply IH.
  - destruct (len <? 0); [reflexivity|]. apply bind_ext; [apply tfn_ext; intros u; apply IH|]. intros; apply IH.
  - apply IH.
  - destruct (len <? 0); [reflexivity|]. apply bind_ext; [reflexivity|]. intros l1. apply bind_ext; [reflexivity|]. intros l2.
    apply bind_ext; [apply (mtfn_ext Sm); intros u; apply IH|]. intros; apply IH.
  - reflexivity.
  - reflexivity.
Qed.
Lemma evaluate_ext {A} (E E' : env A) rb text t : same_on E E' (used text) -> evaluate A E rb text t = evaluate A E' rb text t.
Proof.
  intros Q. unfold evaluate, used in *. destruct (fst (compile_text text [])) as [atoms| | |]; [|reflexivity..].
  apply bind_ext; [reflexivity|]. intros code.
  replace (link_names E' (names_of atoms)) with (link_names E (names_of atoms)).
  - apply if_ext; [|reflexivity]. rewrite (proj1 Q). apply bind_ext; [reflexivity|]. intros c.
    unfold L_exec. destruct c; [reflexivity|]. apply exec_ext, Q.
  - unfold link_names. induction (names_of atoms) as [|n l IH] in Q |- *; [reflexivity|]. cbn [forallb].
    destruct (same_read E E' (n :: l) n Q (or_introl eq_refl)) as [-> K]. rewrite IH.
    + destruct (var_at E n), (var_at E' n); try contradiction; reflexivity.
    + destruct Q as [S Q]. split; [exact S|]. intros m I. apply Q. right. exact I.
Qed.
