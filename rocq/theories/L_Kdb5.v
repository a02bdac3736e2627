(** Reachable worlds satisfy the invariant; calls do not show outside the family they act on. *)
From Coq Require Import ZArith Ascii String List Bool Lia Sorted.
From Verif Require Import M_Base M_Names M_Lex S_Names L_Names M_Kdb S_Kdb L_Kdb L_Kdb2 L_Kdb3 L_Kdb4.
Import ListNotations.
Open Scope Z_scope.

Section W.
Context {T : Type}.
Variable ty : otype.
Variable U : str -> Prop.
Notation world := (world T).
Notation op := (op T).
Implicit Types w : world.
Notation wf := (wf ty U).

Lemma wf_more w l : wf w -> wf (mkW (heap w ++ l) (dbs w)).
Proof.
  intros [? ? Hp ? ? ? ?]. constructor; auto.
  intros d k p H. cbn. rewrite app_length. apply (Hp d k p) in H. lia.
Qed.

(** [shallow_copy]: the loop. *)
Definition shallow_loop s t names wo : world * bool :=
  fold_left (fun '(w, ok) n =>
      if contains ty (get_db w t) n then
        match get_obj_ptr ty (get_db w t) n with
        | Ok p => (upd_db w s (set_objs (put n p)), ok)
        | _ => (w, false)
        end
      else (w, false)) names wo.
Lemma shallow_loop_spec s t names : forall w ok, s <> t -> (s < length (dbs w))%nat -> sorted (objs (get_db w s)) ->
  let r := shallow_loop s t names (w, ok) in
  heap (fst r) = heap w /\ shape w (fst r) /\ sorted (objs (get_db (fst r) s)) /\
  (forall e, e <> s -> get_db (fst r) e = get_db w e) /\
  (forall k p, find k (objs (get_db (fst r) s)) = Some p ->
     find k (objs (get_db w s)) = Some p \/ (In k names /\ get_obj_ptr ty (get_db w t) k = Ok p)) /\
  (snd r = true -> ok = true /\
     (forall k, In k names -> exists p, get_obj_ptr ty (get_db w t) k = Ok p /\ find k (objs (get_db (fst r) s)) = Some p) /\
     (forall k, ~ In k names -> find k (objs (get_db (fst r) s)) = find k (objs (get_db w s)))).
Proof.
  induction names as [|n names IH]; intros w ok N L So; cbn zeta; unfold shallow_loop; cbn [fold_left].
  - cbn [fst snd]. split; [auto|]. split; [apply shape_refl|]. split; [auto|]. split; [auto|]. split; [auto|].
    intros ->. split; auto. split; [intros k []|auto].
  - assert (Bad : forall b, let r := shallow_loop s t names (w, false) in snd r = true -> b = false) .
    { intros b r Hr. destruct (IH w false N L So) as (_ & _ & _ & _ & _ & H). destruct (H Hr) as [X _]. discriminate. }
    assert (BadCase : let r := shallow_loop s t names (w, false) in
      heap (fst r) = heap w /\ shape w (fst r) /\ sorted (objs (get_db (fst r) s)) /\
      (forall e, e <> s -> get_db (fst r) e = get_db w e) /\
      (forall k p, find k (objs (get_db (fst r) s)) = Some p ->
         find k (objs (get_db w s)) = Some p \/ (In k (n :: names) /\ get_obj_ptr ty (get_db w t) k = Ok p)) /\
      (snd r = true -> ok = true /\
         (forall k, In k (n :: names) -> exists p, get_obj_ptr ty (get_db w t) k = Ok p /\ find k (objs (get_db (fst r) s)) = Some p) /\
         (forall k, ~ In k (n :: names) -> find k (objs (get_db (fst r) s)) = find k (objs (get_db w s))))).
    { cbn zeta. destruct (IH w false N L So) as (A & B & C & D & E & F). split; [auto|]. split; [auto|]. split; [auto|].
      split; [auto|]. split.
      - intros k p H. destruct (E k p H) as [H1|[H1 H2]]; auto. right. split; auto. now right.
      - intros Hr. destruct (F Hr) as [X _]. discriminate. }
    destruct (contains ty (get_db w t) n); [|exact BadCase].
    destruct (get_obj_ptr ty (get_db w t) n) as [p| |] eqn:G; [|exact BadCase|exact BadCase].
    clear Bad BadCase. set (w1 := upd_db w s (set_objs (put n p))).
    assert (G1 : forall e, get_db w1 e = if Nat.eqb e s then set_objs (put n p) (get_db w s) else get_db w e)
      by (intros; now apply get_upd).
    assert (Gs : objs (get_db w1 s) = put n p (objs (get_db w s))) by (rewrite G1, Nat.eqb_refl; auto).
    assert (Gt : get_db w1 t = get_db w t).
    { rewrite G1. assert (Nat.eqb t s = false) as -> by (apply Nat.eqb_neq; auto). auto. }
    assert (S1 : shape w w1).
    { split; [apply len_upd|]. intros e. rewrite G1. destruct (Nat.eqb e s) eqn:E; auto. apply Nat.eqb_eq in E. now subst. }
    destruct (IH w1 ok N) as (A & B & C & D & E & F).
    { unfold w1. now rewrite len_upd. }
    { rewrite Gs. now apply sorted_put. }
    unfold shallow_loop in *. set (r := fold_left _ names (w1, ok)) in *.
    split; [rewrite A; auto|]. split; [eapply shape_trans; eauto|]. split; [auto|]. split.
    { intros e Ne. rewrite D by auto. rewrite G1. apply Nat.eqb_neq in Ne. now rewrite Ne. }
    rewrite Gt, Gs in *. split.
    + intros k q H. destruct (E k q H) as [H1|[H1 H2]]; [|right; split; auto; now right].
      rewrite find_put in H1. destruct (str_eqb k n) eqn:Ek; auto. apply str_eqb_iff in Ek. subst k.
      right. split; [now left|]. congruence.
    + intros Hr. destruct (F Hr) as (F1 & F2 & F3). split; auto. split.
      * intros k Hk. destruct (in_dec str_dec k names) as [I|I]; [auto|].
        destruct Hk as [<-|Hk]; [|contradiction]. exists p. split; auto. rewrite F3 by auto.
        now rewrite find_put_eq.
      * intros k Hk. rewrite F3 by (intros X; apply Hk; now right). rewrite find_put.
        destruct (str_eqb k n) eqn:Ek; auto. apply str_eqb_iff in Ek. subst. exfalso. apply Hk. now left.
Qed.

Definition names_in (o : op) : Prop := forall n, In n (names_of o) -> U (key_of ty n).

Lemma shows_same w w' e : wf w -> (exists l, heap w' = heap w ++ l) -> objs (get_db w' e) = objs (get_db w e) ->
  shows w' e = shows w e.
Proof.
  intros W (l & Hl) Ho. unfold shows. rewrite Ho, Hl. apply map_ext_in. intros [k p] H.
  f_equal. apply nth_error_app1. eapply wf_ptr; eauto.
Qed.

(** The selected names are keys of the database. *)
Lemma filter_names_keys b sel l : filter_names b sel = Ok l -> forall n, In n l -> In n (keys (objs b)).
Proof.
  destruct sel as [| |f]; cbn [filter_names].
  - intros H. inversion H. intros n [].
  - intros H. inversion H. auto.
  - destruct (List.filter f (keys (objs b))) as [|x r] eqn:E; [discriminate|]. intros H. inversion H. subst l.
    intros n Hn. rewrite <- E in Hn. now apply filter_In in Hn.
Qed.
Lemma key_facts w d n : wf w -> In n (keys (objs (get_db w d))) ->
  check_name n ty = Ok tt /\ key_of ty n = n /\ U n.
Proof.
  intros W H. unfold keys in H. apply in_map_iff in H. destruct H as ([k p] & <- & H). eapply wf_valid; eauto.
Qed.

(** [get_subset] without copy. *)
Lemma shallow_ok w t names : wf w -> alive (get_db w t) = true -> kind (get_db w t) <> DB_SUBSET ->
  (forall n, In n names -> check_name n ty = Ok tt /\ key_of ty n = n /\ U n) ->
  let s := length (dbs w) in
  let w1 := fst (create w DB_SUBSET t) in
  forall w2, shallow_copy ty w1 s t names = (w2, true) ->
  let w3 := upd_db w2 t (set_kids (fun l => l ++ [s])) in
  wf w3 /\ heap w3 = heap w /\ length (dbs w3) = S (length (dbs w)) /\
  (forall e, (e < length (dbs w))%nat -> objs (get_db w3 e) = objs (get_db w e) /\ family w3 e = family w e /\
     kids (get_db w3 e) = if Nat.eqb e t then kids (get_db w t) ++ [s] else kids (get_db w e)) /\
  kids (get_db w3 s) = [] /\ kind (get_db w3 s) = DB_SUBSET /\ up (get_db w3 s) = t /\
  (forall k, In k names -> exists p, get_obj_ptr ty (get_db w t) k = Ok p /\ find k (objs (get_db w3 s)) = Some p) /\
  (forall k, ~ In k names -> find k (objs (get_db w3 s)) = None).
Proof.
  intros W At Kt Hn s w1 w2 E w3. pose proof (live_lt _ _ At) as Lt.
  destruct (create_ok ty U w DB_SUBSET t W ltac:(auto)) as [W1 C1]. fold w1 in W1, C1.
  assert (Gs : get_db w1 s = mkDb DB_SUBSET true t [] []) by (unfold w1; rewrite get_create, Nat.eqb_refl; auto).
  assert (Gt : get_db w1 t = get_db w t) by (apply C1; unfold s in *; lia).
  assert (Ls : (s < length (dbs w1))%nat) by (unfold w1, s; cbn; rewrite app_length; cbn; lia).
  unfold shallow_copy in E. fold (shallow_loop s t names (w1, true)) in E.
  destruct (shallow_loop_spec s t names w1 true) as (A & B & C & D & F & G); auto.
  { unfold s. lia. }
  { rewrite Gs. apply sorted_nil. }
  destruct (shallow_loop s t names (w1, true)) as [w2' b]. cbn [fst snd] in *.
  destruct b; [|discriminate]. inversion E. subst w2'. clear E.
  rewrite Gt, Gs in *. cbn [objs find] in *. destruct (G eq_refl) as (_ & G2 & G3).
  assert (W2 : wf w2).
  { eapply (wf_edit ty U w1 w2 (fun e k => if Nat.eqb e s then find k (objs (get_db w2 s)) else find k (objs (get_db w1 e))) t 0%nat); auto.
    - constructor; auto.
      + intros e. destruct (Nat.eq_dec e s) as [->|N]; auto. rewrite D by auto. eapply wf_sorted; eauto.
      + intros e k. destruct (Nat.eqb e s) eqn:Ee; [apply Nat.eqb_eq in Ee; now subst|].
        apply Nat.eqb_neq in Ee. now rewrite D.
    - intros e k q H. destruct (Nat.eqb e s).
      + destruct (F k q H) as [X|[X _]]; [discriminate|]. now apply Hn.
      + apply find_In in H. eapply wf_valid; eauto.
    - intros e k q H. left. destruct (Nat.eqb e s) eqn:Ee.
      + apply Nat.eqb_eq in Ee. subst e. destruct (F k q H) as [X|[_ X]]; [discriminate|].
        exists t. split.
        * unfold family. rewrite Gs, Gt. cbn [kind up is_subset]. destruct (kind (get_db w t)); auto. congruence.
        * unfold owns. rewrite Gt. eapply get_obj_ptr_In; eauto.
      + exists e. split; auto. exists k. now apply find_In. }
  destruct B as [Bl B].
  assert (Ks : kind (get_db w2 s) = DB_SUBSET /\ alive (get_db w2 s) = true /\ up (get_db w2 s) = t /\ kids (get_db w2 s) = []).
  { destruct (B s) as (-> & -> & -> & ->). rewrite Gs. auto. }
  assert (Gt2 : get_db w2 t = get_db w t) by (rewrite D; auto; unfold s; lia).
  destruct Ks as (K1 & K2 & K3 & K4).
  assert (W3 : wf w3).
  { apply wf_add_kid; auto.
    - now rewrite Gt2.
    - rewrite Gt2. intros H. apply (kids_lt _ _ _ _ _ W) in H. unfold s in H. lia. }
  assert (Lt2 : (t < length (dbs w2))%nat) by (rewrite Bl; unfold w1; cbn; rewrite app_length; lia).
  assert (G4 : forall e, get_db w3 e = if Nat.eqb e t then set_kids (fun l => l ++ [s]) (get_db w t) else get_db w2 e).
  { intros e. unfold w3. rewrite get_upd by auto. now rewrite Gt2. }
  assert (Nst : Nat.eqb s t = false) by (apply Nat.eqb_neq; unfold s; lia).
  split; [auto|]. split; [exact A|]. split.
  { unfold w3. rewrite len_upd, Bl. unfold w1. cbn. rewrite app_length. cbn. lia. }
  split.
  { intros e He. assert (Ne : e <> s) by (unfold s; lia).
    unfold family. rewrite G4. destruct (Nat.eqb e t) eqn:Ee.
    - apply Nat.eqb_eq in Ee. subst e. cbn. auto.
    - rewrite (D e Ne). destruct (C1 e Ne) as [-> _]. auto. }
  rewrite G4, Nst. split; [auto|]. split; [auto|]. split; [auto|]. split.
  - intros k Hk. destruct (G2 k Hk) as (p & X & Y). exists p. auto.
  - intros k Hk. now apply G3.
Qed.


Lemma deep_ok w t names : wf w -> alive (get_db w t) = true -> kind (get_db w t) <> DB_SUBSET ->
  (forall n, In n names -> check_name n ty = Ok tt /\ key_of ty n = n /\ U n) ->
  let s := length (dbs w) in
  let w1 := fst (create w DB_STANDALONE 0) in
  let r := deep_copy ty w1 s t names in
  wf (fst r) /\ (exists l, heap (fst r) = heap w ++ l) /\
  length (dbs (fst r)) = S (length (dbs w)) /\
  (forall e, (e < length (dbs w))%nat -> objs (get_db (fst r) e) = objs (get_db w e) /\ family (fst r) e = family w e) /\
  kind (get_db (fst r) s) = DB_STANDALONE.
Proof.
  intros W At Kt Hn s w1 r. pose proof (live_lt _ _ At) as Lt.
  destruct (create_ok ty U w DB_STANDALONE 0 W ltac:(discriminate)) as [W1 C1]. fold w1 in W1, C1.
  assert (Gs : get_db w1 s = mkDb DB_STANDALONE true 0 [] []) by (unfold w1; rewrite get_create, Nat.eqb_refl; auto).
  assert (Ll : length (dbs w1) = S (length (dbs w))) by (unfold w1; cbn; rewrite app_length; cbn; lia).
  unfold r, deep_copy.
  set (f := fun w n => if contains ty (get_db w t) n then copy_obj_from ty w s t n n else (w, Ret false)).
  assert (As : alive (get_db w1 s) = true) by now rewrite Gs.
  assert (Fs : family w1 s = s) by (unfold family; now rewrite Gs).
  destruct (each_ok ty U s names f w1 W1 As) as [A B].
  { intros w' x Hx W' L' _. unfold f. destruct (contains _ _ _); [|split; auto; apply within_refl].
    apply copy_obj_from_ok; auto. intros _. destruct (Hn x Hx) as (_ & -> & ?). auto. }
  rewrite Fs in B. destruct (each names f w1) as [w2 o]. cbn [fst] in A, B.
  destruct B as ((l & Bh) & Bs & Bo).
  assert (Gen : (exists l, heap w2 = heap w ++ l) /\ length (dbs w2) = S (length (dbs w)) /\
    (forall e, (e < length (dbs w))%nat -> objs (get_db w2 e) = objs (get_db w e) /\ family w2 e = family w e) /\
    kind (get_db w2 s) = DB_STANDALONE).
  { split; [exists l; exact Bh|]. split; [destruct Bs; lia|]. split.
    - intros e He. assert (Ne : e <> s) by (unfold s; lia). destruct (C1 e Ne) as [X Y].
      rewrite (shape_family _ _ e Bs), Y. split; auto. rewrite Bo, X; auto.
      rewrite Y. intros F. unfold family in F. destruct (is_subset (kind (get_db w e))) eqn:K; [|contradiction].
      assert (K' : kind (get_db w e) = DB_SUBSET) by (destruct (kind (get_db w e)); auto; discriminate).
      destruct (wf_up _ _ _ W e K') as [_ Hu]. unfold s in F. lia.
    - destruct Bs as [_ Bs]. destruct (Bs s) as (-> & _). now rewrite Gs. }
  destruct o as [b|]; [|split; auto].
  destruct (forallb (contains ty (get_db w1 t)) names); [split; auto|]. cbn [fst].
  destruct Gen as ((l2 & G1) & G2 & G3 & G4).
  assert (A2 : alive (get_db w2 s) = true) by (rewrite (shape_alive w1 w2); auto).
  destruct (clear_ok ty U w2 s A A2) as [Cw Co].
  destruct (clear_spec ty U w2 s A A2) as (Ch & Cl & Cs).
  split; [auto|]. split; [exists l2; congruence|]. split; [congruence|]. split.
  - intros e He. assert (Fe : family w2 e <> family w2 s).
    { unfold family at 2. rewrite G4. cbn [is_subset]. destruct (G3 e He) as [_ ->].
      unfold family. destruct (is_subset (kind (get_db w e))) eqn:K; [|unfold s; lia].
      assert (K' : kind (get_db w e) = DB_SUBSET) by (destruct (kind (get_db w e)); auto; discriminate).
      destruct (wf_up _ _ _ W e K') as [_ Hu]. unfold s. lia. }
    destruct (Co e Fe) as [-> ->]. auto.
  - destruct Cs as [[X _]|[X Cs]]; [congruence|]. destruct (Cs s) as (-> & _). rewrite G4.
    destruct (in_list _ _); auto.
Qed.

(** One call. *)
Definition keeps_others w (o : op) w' : Prop :=
  forall e, (e < length (dbs w))%nat -> (forall d, acts_on w o d -> family w d <> family w e) ->
    shows w' e = shows w e /\ family w' e = family w e.
Lemma within_keeps w (o : op) w' d : wf w -> acts_on w o d -> within (family w d) w w' -> keeps_others w o w'.
Proof.
  intros W A (Hh & Hs & Ho) e He H. split.
  - apply shows_same; auto. apply Ho. apply not_eq_sym. auto.
  - now apply shape_family.
Qed.
Lemma same_keeps w (o : op) : keeps_others w o w.
Proof. intros e _ _. auto. Qed.

Lemma step_ok w o : wf w -> names_in o ->
  wf (fst (step ty w o)) /\ keeps_others w o (fst (step ty w o)) /\
  (length (dbs w) <= length (dbs (fst (step ty w o))))%nat.
Proof.
  intros W N. assert (Same : wf w /\ keeps_others w o w /\ (length (dbs w) <= length (dbs w))%nat)
    by (split; auto; split; auto using same_keeps).
  assert (Within : forall d r, acts_on w o d -> ok_within ty U w d r ->
    wf (fst r) /\ keeps_others w o (fst r) /\ (length (dbs w) <= length (dbs (fst r)))%nat).
  { intros d r A [B C]. split; auto. split; [eapply within_keeps; eauto|]. destruct C as (_ & (-> & _) & _). auto. }
  destruct o as [|d n v|d n p|d n v|d n v|d n|d a b ow|d e ow c|d e a b|d sel c|d|d|p v]; cbn [step fst].
  - destruct (create_ok ty U w DB_STANDALONE 0 W ltac:(discriminate)) as [A B]. split; auto. split.
    + intros e He _. destruct (B e ltac:(lia)) as [X Y]. split; auto. apply shows_same; auto.
      exists []. now rewrite app_nil_r. now rewrite X.
    + cbn. rewrite app_length. lia.
  - destruct (live w d) eqn:L; auto. apply (Within d); [reflexivity|]. apply set_ok; auto. intros _. apply N. now left.
  - destruct (live w d) eqn:L; auto. apply (Within d); [reflexivity|]. apply set_obj_ptr_ok; auto. intros _. apply N. now left.
  - destruct (live w d) eqn:L; auto. apply (Within d); [reflexivity|]. apply add_ok; auto. intros _. apply N. now left.
  - destruct (live w d) eqn:L; auto. apply (Within d); [reflexivity|]. apply update_ok; auto. intros _. apply N. now left.
  - destruct (live w d) eqn:L; auto. apply (Within d); [reflexivity|]. apply remove_ok; auto.
  - destruct (live w d) eqn:L; auto. apply (Within d); [reflexivity|]. apply rename_ok; auto. intros _. apply N. right. now left.
  - destruct (live w d) eqn:L; auto. destruct (live w e) eqn:L2; auto. cbn [andb].
    unfold merge. destruct (objs (get_db w e)) as [|kv rest] eqn:E; auto.
    destruct (each_ok ty U d (keys (kv :: rest)) (merge_body ty d e ow) w W L) as [A B].
    { intros w' x Hx W' L' _. apply merge_body_ok; auto. intros _.
      rewrite <- E in Hx. destruct (key_facts _ _ _ W Hx) as (_ & -> & ?). auto. }
    fold (@merge_body T ty d e ow).
    destruct (each (keys (kv :: rest)) (merge_body ty d e ow) w) as [w1 r]. cbn [fst] in A, B.
    assert (K1 : wf w1 /\ keeps_others w (Merge d e ow c) w1 /\ (length (dbs w) <= length (dbs w1))%nat).
    { apply (Within d (w1, Ret true)). now left. split; auto. }
    destruct r as [b|]; auto. cbn [fst]. destruct c; auto.
    assert (L3 : alive (get_db w1 e) = true) by (rewrite (shape_alive w w1); auto; apply B).
    destruct (clear_ok ty U w1 e A L3) as [Cw Co]. destruct (clear_spec ty U w1 e A L3) as (Ch & Cl & _).
    destruct K1 as (_ & K1 & K2). split; auto. split; [|lia].
    intros x Hx H. destruct (K1 x Hx H) as [X Y].
    assert (Ne : family w1 x <> family w1 e).
    { rewrite Y. rewrite (shape_family w w1 e) by apply B. apply not_eq_sym. apply H. right. auto. }
    destruct (Co x Ne) as [O1 O2]. split; [|congruence]. rewrite <- X. apply shows_same; auto.
    exists []. now rewrite app_nil_r.
  - destruct (live w d) eqn:L; auto. destruct (live w e) eqn:L2; auto. cbn [andb].
    apply (Within d); [reflexivity|]. apply duplicate_ok; auto. intros _. apply N. right. now left.
  - destruct (live w d) eqn:L; auto. unfold get_subset.
    destruct (filter_names (get_db w d) sel) as [names| |] eqn:Fn; auto.
    destruct (top_of w d) as [t|] eqn:Ht; auto.
    pose proof (top_facts _ _ _ _ _ W L Ht) as (At & Kt & _).
    assert (Hn : forall n, In n names -> check_name n ty = Ok tt /\ key_of ty n = n /\ U n).
    { intros n Hn. eapply key_facts; eauto. eapply filter_names_keys; eauto. }
    destruct c.
    + change (create w DB_STANDALONE 0) with (fst (create w DB_STANDALONE 0), length (dbs w)). cbn iota zeta beta.
      destruct (deep_ok w t names W At Kt Hn) as (A & (l & B) & C & D & E).
      destruct (deep_copy ty (fst (create w DB_STANDALONE 0)) (length (dbs w)) t names) as [w2 r].
      cbn [fst] in *.
      assert (R1 : wf w2 /\ keeps_others w (Subset d sel true) w2 /\ (length (dbs w) <= length (dbs w2))%nat).
      { split; auto. split; [|lia]. intros x Hx _. destruct (D x Hx). split; auto. apply shows_same; eauto. }
      assert (R2 : wf (mkW (heap w2) (dbs w)) /\ keeps_others w (Subset d sel true) (mkW (heap w2) (dbs w)) /\
        (length (dbs w) <= length (dbs (mkW (heap w2) (dbs w))))%nat).
      { split; [rewrite B; now apply wf_more|]. split; [|cbn; lia]. intros x Hx _. split; auto.
        apply shows_same; cbn; eauto. }
      destruct r as [[]|]; auto.
    + change (create w DB_SUBSET t) with (fst (create w DB_SUBSET t), length (dbs w)). cbn iota zeta beta.
      pose proof (shallow_ok w t names W At Kt Hn) as Sh. cbn zeta in Sh.
      destruct (shallow_copy ty (fst (create w DB_SUBSET t)) (length (dbs w)) t names) as [w2 []]; auto.
      destruct (Sh w2 eq_refl) as (A & B & C & D & _). cbn [fst]. split; auto. split; [|lia].
      intros x Hx _. destruct (D x Hx) as (D1 & D2 & _). split; auto. apply shows_same; auto.
      exists []. now rewrite app_nil_r.
  - destruct (live w d) eqn:L; auto. cbn [fst].
    destruct (clear_ok ty U w d W L) as [Cw Co]. destruct (clear_spec ty U w d W L) as (Ch & Cl & _).
    split; auto. split; [|lia]. intros x Hx H. destruct (Co x (not_eq_sym (H d eq_refl))) as [O1 O2].
    split; auto. apply shows_same; auto. exists []. now rewrite app_nil_r.
  - destruct (live w d) eqn:L; auto. cbn [fst]. unfold drop.
    destruct (_ && existsb _ _) eqn:Reg; auto.
    destruct (clear_ok ty U w d W L) as [Cw Co]. destruct (clear_spec ty U w d W L) as (Ch & Cl & Cs).
    set (w1 := clear w d) in *. pose proof (live_lt _ _ L) as Ld.
    set (w2 := upd_db w1 d _).
    assert (G : forall e, kind (get_db w2 e) = kind (get_db w1 e) /\ up (get_db w2 e) = up (get_db w1 e) /\
      kids (get_db w2 e) = kids (get_db w1 e) /\ objs (get_db w2 e) = objs (get_db w1 e) /\
      (e <> d -> alive (get_db w2 e) = alive (get_db w1 e))).
    { intros e. unfold w2. rewrite get_upd by lia. destruct (Nat.eqb e d) eqn:E.
      - apply Nat.eqb_eq in E. subst e. cbn. auto. split; auto. split; auto. split; auto. split; auto. congruence.
      - auto. }
    assert (Nk : kids (get_db w1 d) = []).
    { destruct Cs as [[K Cs]|[K Cs]].
      - destruct (Cs d) as (_ & _ & _ & _ & ->). destruct (kids (get_db w d)) as [|c l] eqn:Ek; auto. exfalso.
        destruct (wf_kids _ _ _ W d c ltac:(rewrite Ek; now left)) as (A & B & _).
        destruct (wf_up _ _ _ W c A) as [X _]. congruence.
      - destruct (Cs d) as (_ & _ & _ & _ & ->). now rewrite Nat.eqb_refl. }
    assert (Nd : forall t, ~ In d (kids (get_db w1 t))).
    { intros t HI. destruct (wf_kids _ _ _ Cw t d HI) as (A & B & _ & D).
      destruct Cs as [[K Cs]|[K Cs]].
      - destruct (Cs t) as (_ & _ & _ & _ & E). rewrite E in HI. apply filter_In in HI. destruct HI as [_ HI].
        rewrite Nat.eqb_refl in HI. discriminate.
      - destruct (Cs d) as (E & _). rewrite E in A. destruct (in_list d (kids (get_db w d))); [discriminate|congruence]. }
    split; [|split].
    + constructor.
      * intros e. destruct (G e) as (_ & _ & _ & -> & _). eapply wf_sorted; eauto.
      * intros e k p. destruct (G e) as (_ & _ & _ & -> & _). eapply wf_valid; eauto.
      * intros e k p. destruct (G e) as (_ & _ & _ & -> & _). exact (wf_ptr _ _ _ Cw e k p).
      * intros a b p [k1 H1] [k2 H2]. unfold family. destruct (G a) as (-> & -> & _ & Ea & _), (G b) as (-> & -> & _ & Eb & _).
        rewrite Ea in H1. rewrite Eb in H2. apply (wf_sep _ _ _ Cw a b p); eexists; eauto.
      * intros x c. destruct (G x) as (_ & _ & -> & _ & Ax), (G c) as (-> & -> & _ & _ & Ac). intros HI.
        assert (x <> d) by (intros ->; rewrite Nk in HI; destruct HI).
        assert (c <> d) by (intros ->; now apply Nd in HI).
        rewrite Ax, Ac by auto. eapply wf_kids; eauto.
      * intros t. destruct (G t) as (_ & _ & -> & _). eapply wf_nodup; eauto.
      * intros e. assert (length (dbs w2) = length (dbs w1)) as -> by apply len_upd.
        destruct (G e) as (-> & -> & _). destruct (G (up (get_db w1 e))) as (-> & _). eapply wf_up; eauto.
    + intros x Hx H. destruct (Co x (not_eq_sym (H d eq_refl))) as [O1 O2].
      destruct (G x) as (G1 & G2 & _ & G4 & _). split.
      * apply shows_same; auto. exists []. now rewrite app_nil_r. congruence.
      * rewrite <- O2. unfold family. now rewrite G1, G2.
    + unfold w2. rewrite len_upd. lia.
  - split; [|split].
    + assert (Hl : length (upd_list p (fun _ => v) (heap w)) = length (heap w)) by apply upd_list_length.
      now apply set_heap_ok.
    + intros e He H. split; auto. unfold shows, get_db. cbn [dbs heap]. apply map_ext_in. intros [k q] HI. f_equal.
      assert (p <> q).
      { intros ->. apply (H e); [|reflexivity]. exists k. exact HI. }
      clear - H0. revert p q H0. generalize (heap w). induction l as [|x l IH]; intros [|p] [|q] N; cbn; auto; try congruence.
    + cbn. auto.
Qed.

(** Sequences of calls. *)
Lemma run_cons o ops w : run ty (o :: ops) w = run ty ops (fst (step ty w o)).
Proof. reflexivity. Qed.
Lemma run_ok ops : forall w, wf w -> (forall o, In o ops -> names_in o) -> wf (run ty ops w).
Proof.
  induction ops as [|o ops IH]; intros w W N; auto. rewrite run_cons. apply IH.
  - apply step_ok; auto. apply N. now left.
  - intros o' H. apply N. now right.
Qed.
Lemma run_avoids ops : forall w e, wf w -> (forall o, In o ops -> names_in o) -> (e < length (dbs w))%nat ->
  avoids ty e w ops -> shows (run ty ops w) e = shows w e /\ family (run ty ops w) e = family w e.
Proof.
  induction ops as [|o ops IH]; intros w e W N L H; auto. rewrite run_cons. destruct H as [H1 H2].
  destruct (step_ok w o W (N o ltac:(now left))) as (A & B & C).
  destruct (B e L H1) as [X Y].
  destruct (IH (fst (step ty w o)) e A ltac:(intros; apply N; now right) ltac:(lia) H2) as [P Q].
  split; congruence.
Qed.
Lemma wf_empty : wf (@empty_world T).
Proof.
  assert (G : forall d, get_db (@empty_world T) d = dead) by (intros [|d]; reflexivity).
  constructor.
  - intros d. rewrite G. apply sorted_nil.
  - intros d k p. rewrite G. intros [].
  - intros d k p. rewrite G. intros [].
  - intros d e p [k H]. rewrite G in H. destruct H.
  - intros t c. rewrite (G t). intros [].
  - intros t. rewrite G. constructor.
  - intros d. rewrite G. discriminate.
Qed.
End W.
