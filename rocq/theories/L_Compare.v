(** Lemmas: the comparison of a workspace with a file. *)
From Coq Require Import ZArith Ascii String List Bool Lia ZifyBool Sorting.Sorted.
From Verif Require Import M_Base M_Names M_Lex M_Kdb S_Names L_Names L_Kdb M_Exec M_Lists M_Compare S_Compare.
Import ListNotations.
Open Scope Z_scope.

Section Compare.
Context {T : Type}.
Variable ty : otype.
Variable same : T -> T -> res bool.
Variable K1 K2 : smap T.
Hypothesis D1 : database ty K1.
Hypothesis D2 : database ty K2.
Hypothesis OC : one_case ty K1 K2.

Definition used (n : str) : Prop := In n (keys K1 ++ keys K2).
Lemma letter_not_blank c : (letter_of ty c \/ 48 <= code c <= 57 \/ code c = 95 \/ code c = 35) -> ~ blank c.
Proof. intros H B. apply blank_iff in B. unfold isspace in B. destruct ty; cbn in H; lia. Qed.
Lemma used_accepted n : used n -> accepted ty n.
Proof. intros H. apply in_app_or in H as [H|H]; [apply D1, H|apply D2, H]. Qed.
Lemma accepted_chars n : accepted ty n -> Forall (fun x => letter_of ty x \/ 48 <= code x <= 57 \/ code x = 95 \/ code x = 35) n.
Proof. intros (c & r & -> & _ & Hc & Hr). constructor; [tauto|exact Hr]. Qed.
Lemma accepted_trim n : accepted ty n -> trim n = n.
Proof.
  intros H. apply accepted_chars in H. apply (trimmed_unique n); [apply trim_trimmed|]. rewrite Forall_forall in H.
  exists [], []. rewrite app_nil_r. repeat split; try constructor; intros c u E; apply letter_not_blank, H; rewrite E; [left; reflexivity|apply in_or_app; right; left; reflexivity].
Qed.
Lemma accepted_key n : accepted ty n -> to_key (mode_of ty) n = n.
Proof.
  intros H. unfold to_key. rewrite accepted_trim by exact H. apply accepted_chars in H.
  assert (U : forall f : ascii -> ascii, Forall (fun c => f c = c) n -> map f n = n) by (intros f F; rewrite <- (map_id n) at 2; apply map_ext_in; rewrite Forall_forall in F; exact F).
  destruct (mode_of ty) eqn:M; [apply U|apply U|reflexivity].
  - eapply Forall_impl; [|exact H]. intros c Hc. cbn in Hc. unfold toupper, islower. destruct ty; cbn in M, Hc; try discriminate; replace ((97 <=? code c) && (code c <=? 122)) with false by lia; reflexivity.
  - eapply Forall_impl; [|exact H]. intros c Hc. cbn in Hc. unfold tolower, isupper. destruct ty; cbn in M, Hc; try discriminate; replace ((65 <=? code c) && (code c <=? 90)) with false by lia; reflexivity.
Qed.
Definition part (m : smap T) : Prop := forall n, In n (keys m) -> used n.
Definition present (m : smap T) (n : str) : bool := match M_Kdb.find n m with Some _ => true | None => false end.
Lemma present_In (m : smap T) n : present m n = true <-> In n (keys m).
Proof. unfold present. destruct (M_Kdb.find n m) eqn:E; [|apply find_None in E; split; [discriminate|tauto]]. split; [intros _|reflexivity]. apply find_In in E. apply (in_map fst) in E. exact E. Qed.
Lemma find_is n m : part m -> used n -> has_name ty m n = present m n.
Proof.
  intros P U. unfold has_name. pose proof (used_accepted n U) as A. destruct (is_cmt ty) eqn:C; [|rewrite accepted_key by exact A; reflexivity].
  assert (Ty : ty = COMMENTS) by (destruct ty; try discriminate; reflexivity). rewrite accepted_trim by exact A. apply eq_true_iff_eq. rewrite present_In, existsb_exists. split.
  - intros (k & Hk & E). apply str_eqb_iff in E. rewrite <- (OC Ty k n (P k Hk) U E). exact Hk.
  - intros H. exists n. split; [exact H|apply str_eqb_refl].
Qed.
Lemma last_match (l : list str) n : In n l -> (forall k, In k l -> to_lower k = to_lower n -> k = n) -> forall acc,
  fold_left (fun acc k => if str_eqb (to_lower k) (to_lower n) then k else acc) l acc = n.
Proof.
  intros I U. assert (G : forall l acc, (forall k, In k l -> to_lower k = to_lower n -> k = n) -> acc = n \/ In n l -> fold_left (fun acc k => if str_eqb (to_lower k) (to_lower n) then k else acc) l acc = n).
  { clear. induction l as [|k l IH]; intros acc U H; [destruct H as [H|[]]; exact H|]. cbn [fold_left]. apply IH; [intros x Hx; apply U; right; exact Hx|].
    destruct (str_eqb (to_lower k) (to_lower n)) eqn:E; [left; apply U; [left; reflexivity|apply str_eqb_iff, E]|].
    destruct H as [H|[H|H]]; [left; exact H|subst; rewrite str_eqb_refl in E; discriminate|right; exact H]. }
  intros acc. apply G; [exact U|right; exact I].
Qed.
Lemma object_is n m v : part m -> used n -> M_Kdb.find n m = Some v -> object_of ty m n = Ok v.
Proof.
  intros P U F. unfold object_of. pose proof (used_accepted n U) as A. destruct (is_cmt ty) eqn:C; [|rewrite accepted_key, F by exact A; reflexivity].
  assert (Ty : ty = COMMENTS) by (destruct ty; try discriminate; reflexivity). rewrite accepted_trim by exact A.
  rewrite last_match, F; [reflexivity|apply present_In; unfold present; rewrite F; reflexivity|]. intros k Hk E. exact (OC Ty k n (P k Hk) U E).
Qed.
Lemma remove_is n m : part m -> used n -> In n (keys m) -> remove_name ty m n = del n m.
Proof. intros P U I. unfold remove_name. rewrite accepted_key by (apply used_accepted, U). rewrite find_is by assumption. apply present_In in I. rewrite I. reflexivity. Qed.

Definition equal_at (n : str) : bool := match M_Kdb.find n K1, M_Kdb.find n K2 with Some a, Some b => match same a b with Ok true => true | _ => false end | _, _ => false end.
Definition differ_at (n : str) : bool := match M_Kdb.find n K1, M_Kdb.find n K2 with Some a, Some b => match same a b with Ok false => true | _ => false end | _, _ => false end.
Hypothesis total : forall n a b, M_Kdb.find n K1 = Some a -> M_Kdb.find n K2 = Some b -> exists r, same a b = Ok r.

Lemma del_keys n (m : smap T) x : sorted m -> In x (keys (del n m)) <-> In x (keys m) /\ x <> n.
Proof.
  intros S. rewrite <- !present_In. unfold present. rewrite find_del by exact S. destruct (str_eqb x n) eqn:E.
  - apply str_eqb_iff in E. split; [discriminate|tauto].
  - apply str_eqb_neq in E. tauto.
Qed.
Lemma compare_names_is names : forall m l1 l2 l3 l4, (forall n, In n names -> In n (keys K1)) -> NoDup names -> part m -> sorted m ->
  (forall n, In n names -> M_Kdb.find n m = M_Kdb.find n K2) -> exists m',
  compare_names ty same names K1 m (l1, l2, l3, l4) =
    Ok ((l1 ++ filter (fun n => negb (present K2 n)) names, l2, l3 ++ filter equal_at names, l4 ++ filter differ_at names), m') /\ sorted m' /\
    (forall x, In x (keys m') <-> In x (keys m) /\ ~ In x names).
Proof.
  induction names as [|n names IH]; intros m l1 l2 l3 l4 I N P S F.
  - exists m. cbn. rewrite !app_nil_r. repeat split; tauto.
  - cbn [compare_names]. inversion N as [|? ? Nn N']; subst. pose proof (I n (or_introl eq_refl)) as In1. assert (U : used n) by (apply in_or_app; left; exact In1).
    assert (P1 : part K1) by (intros x Hx; apply in_or_app; left; exact Hx).
    unfold K_compare. rewrite (find_is n K1 P1 U), (find_is n m P U). pose proof In1 as Pr1. apply present_In in Pr1. rewrite Pr1.
    pose proof (F n (or_introl eq_refl)) as Fn. cbn [filter]. unfold equal_at at 1, differ_at at 1. unfold present at 1 2. rewrite Fn.
    unfold present in Pr1. destruct (M_Kdb.find n K1) as [a|] eqn:E1; [|discriminate]. destruct (M_Kdb.find n K2) as [b|] eqn:E2.
    + rewrite (object_is n K1 a P1 U E1), (object_is n m b P U Fn). destruct (total n a b E1 E2) as [r ->]. cbn [negb].
      assert (Im : In n (keys m)) by (apply present_In; unfold present; rewrite Fn; reflexivity). rewrite (remove_is n m P U Im).
      assert (Pd : part (del n m)) by (intros x Hx; apply del_keys in Hx; [apply P; tauto|exact S]).
      assert (Fd : forall x, In x names -> M_Kdb.find x (del n m) = M_Kdb.find x K2) by (intros x Hx; rewrite find_del_neq; [apply F; right; exact Hx|intros ->; contradiction]).
      assert (Hk : forall m' : smap T, (forall x, In x (keys m') <-> In x (keys (del n m)) /\ ~ In x names) -> forall x, In x (keys m') <-> In x (keys m) /\ ~ In x (n :: names)).
      { intros m' H x. rewrite H, del_keys by exact S. cbn [In]. split; [intros [[A B] C]; split; [exact A|intros [->|D]; tauto]|intros [A B]; repeat split; [exact A|intros ->; tauto|tauto]]. }
      destruct r.
      * destruct (IH (del n m) l1 l2 (l3 ++ [n]) l4) as (m' & E & Sm & Km); [intros x Hx; apply I; right; exact Hx|exact N'|exact Pd|apply sorted_del, S|exact Fd|].
        exists m'. rewrite E, <- !app_assoc. split; [reflexivity|]. split; [exact Sm|]. exact (Hk m' Km).
      * destruct (IH (del n m) l1 l2 l3 (l4 ++ [n])) as (m' & E & Sm & Km); [intros x Hx; apply I; right; exact Hx|exact N'|exact Pd|apply sorted_del, S|exact Fd|].
        exists m'. rewrite E, <- !app_assoc. split; [reflexivity|]. split; [exact Sm|]. exact (Hk m' Km).
    + cbn [negb]. destruct (IH m (l1 ++ [n]) l2 l3 l4) as (m' & E & Sm & Km); [intros x Hx; apply I; right; exact Hx|exact N'|exact P|exact S|intros x Hx; apply F; right; exact Hx|].
      exists m'. rewrite E, <- !app_assoc. split; [reflexivity|]. split; [exact Sm|]. intros x. rewrite Km. cbn [In]. split; [intros [A B]; split; [exact A|intros [->|C]; [|tauto]]|tauto].
      apply present_In in A. unfold present in A. rewrite Fn in A. discriminate.
Qed.

Lemma sorted_keys (m : smap T) : sorted m -> StronglySorted (fun a b => str_ltb a b = true) (keys m).
Proof. intros S. exact S. Qed.
Lemma sorted_filter p l : StronglySorted (fun a b : str => str_ltb a b = true) l -> StronglySorted (fun a b => str_ltb a b = true) (filter p l).
Proof.
  induction 1 as [|x l S IH F]; [constructor|]. cbn [filter]. destruct (p x); [|exact IH]. constructor; [exact IH|]. rewrite Forall_forall in *. intros y Hy. apply filter_In in Hy. apply F, Hy.
Qed.
Theorem compare_is : exists l1 l2 l3 l4, compare ty same K1 K2 = Ok (l1, l2, l3, l4) /\
  exactly_those (fun n => In n (keys K1) /\ ~ In n (keys K2)) l1 /\
  exactly_those (fun n => ~ In n (keys K1) /\ In n (keys K2)) l2 /\
  exactly_those (fun n => exists a b, M_Kdb.find n K1 = Some a /\ M_Kdb.find n K2 = Some b /\ same a b = Ok true) l3 /\
  exactly_those (fun n => exists a b, M_Kdb.find n K1 = Some a /\ M_Kdb.find n K2 = Some b /\ same a b = Ok false) l4.
Proof.
  destruct D1 as [S1 A1], D2 as [S2 A2].
  destruct (compare_names_is (keys K1) K2 [] [] [] []) as (m' & E & Sm & Km); [tauto|apply sorted_NoDup, S1|intros x Hx; apply in_or_app; right; exact Hx|exact S2|reflexivity|].
  unfold compare. rewrite E. cbn [app]. do 4 eexists. split; [reflexivity|]. repeat split.
  - apply sorted_filter, sorted_keys, S1.
  - apply filter_In in H. tauto.
  - apply filter_In in H as [_ H]. apply negb_true_iff in H. rewrite <- present_In. congruence.
  - intros [A B]. apply filter_In. split; [exact A|]. apply negb_true_iff, not_true_iff_false. rewrite present_In. exact B.
  - apply sorted_keys, Sm.
  - apply Km in H. tauto.
  - apply Km in H. tauto.
  - intros [A B]. apply Km. tauto.
  - apply sorted_filter, sorted_keys, S1.
  - intros H. apply filter_In in H as [_ H]. unfold equal_at in H. destruct (M_Kdb.find n K1) as [a|]; [|discriminate]. destruct (M_Kdb.find n K2) as [b|]; [|discriminate].
    exists a, b. repeat split. destruct (same a b) as [[|]| |]; try discriminate. reflexivity.
  - intros (a & b & F1 & F2 & Sa). apply filter_In. split; [apply present_In; unfold present; rewrite F1; reflexivity|]. unfold equal_at. rewrite F1, F2, Sa. reflexivity.
  - apply sorted_filter, sorted_keys, S1.
  - intros H. apply filter_In in H as [_ H]. unfold differ_at in H. destruct (M_Kdb.find n K1) as [a|]; [|discriminate]. destruct (M_Kdb.find n K2) as [b|]; [|discriminate].
    exists a, b. repeat split. destruct (same a b) as [[|]| |]; try discriminate. reflexivity.
  - intros (a & b & F1 & F2 & Sa). apply filter_In. split; [apply present_In; unfold present; rewrite F1; reflexivity|]. unfold differ_at. rewrite F1, F2, Sa. reflexivity.
Qed.
End Compare.
