(** Lemmas on the model of databases. *)
From Coq Require Import ZArith Ascii String List Bool Lia Sorted.
From Verif Require Import M_Base M_Names M_Lex S_Names L_Names M_Kdb.
Import ListNotations.
Open Scope Z_scope.

Lemma str_eqb_refl a : str_eqb a a = true.
Proof. now apply str_eqb_iff. Qed.
Lemma str_eqb_sym a b : str_eqb a b = str_eqb b a.
Proof.
  destruct (str_eqb a b) eqn:E1, (str_eqb b a) eqn:E2; auto.
  - apply str_eqb_iff in E1. subst. rewrite str_eqb_refl in E2. discriminate.
  - apply str_eqb_iff in E2. subst. rewrite str_eqb_refl in E1. discriminate.
Qed.
Lemma str_eqb_neq a b : str_eqb a b = false <-> a <> b.
Proof.
  destruct (str_eqb a b) eqn:E; split; intros H; try discriminate; auto.
  - apply str_eqb_iff in E. congruence.
  - intros ->. rewrite str_eqb_refl in E. discriminate.
Qed.
Lemma str_dec (a b : str) : {a = b} + {a <> b}.
Proof. destruct (str_eqb a b) eqn:E; [left; now apply str_eqb_iff|right; now apply str_eqb_neq]. Qed.

Lemma code_inj a b : code a = code b -> a = b.
Proof.
  unfold code. intros H. apply N2Z.inj in H.
  rewrite <- (ascii_N_embedding a), <- (ascii_N_embedding b). now rewrite H.
Qed.

Definition str_lt (a b : str) : Prop := str_ltb a b = true.
Lemma str_lt_irrefl a : ~ str_lt a a.
Proof. unfold str_lt. induction a as [|x a IH]; cbn; [discriminate|]. rewrite Z.ltb_irrefl, Z.eqb_refl. exact IH. Qed.
Lemma str_lt_trans a : forall b c, str_lt a b -> str_lt b c -> str_lt a c.
Proof.
  unfold str_lt. induction a as [|x a IH]; intros [|y b] [|z c]; cbn; auto; try discriminate.
  intros H1 H2. apply orb_true_iff in H1. apply orb_true_iff in H2. apply orb_true_iff.
  rewrite andb_true_iff in *. rewrite !Z.ltb_lt, !Z.eqb_eq in *.
  destruct H1 as [H1|[H1 H1']], H2 as [H2|[H2 H2']]; try (left; lia).
  right. split; [lia|eauto].
Qed.
Lemma str_lt_total a : forall b, str_ltb a b = false -> str_eqb a b = false -> str_lt b a.
Proof.
  unfold str_lt. induction a as [|x a IH]; intros [|y b] H1 H2; cbn; auto; try discriminate.
  apply str_eqb_neq in H2. cbn in H1. apply orb_false_iff in H1. destruct H1 as [H1 H1'].
  apply orb_true_iff. apply Z.ltb_ge in H1. destruct (Z.eq_dec (code x) (code y)) as [E|E].
  - right. rewrite E in *. rewrite Z.eqb_refl in *. cbn in *. apply IH; auto.
    apply code_inj in E. subst. apply str_eqb_neq. congruence.
  - left. apply Z.ltb_lt. lia.
Qed.

Section Maps.
Context {V : Type}.
Implicit Types m : smap V.

Lemma find_put_eq k (v : V) m : find k (put k v m) = Some v.
Proof.
  induction m as [|[k' v'] m IH]; cbn.
  - now rewrite str_eqb_refl.
  - destruct (str_ltb k k'); cbn; [now rewrite str_eqb_refl|].
    destruct (str_eqb k k') eqn:E; cbn; [now rewrite str_eqb_refl|]. now rewrite E.
Qed.
Lemma find_put_neq k k2 (v : V) m : k2 <> k -> find k2 (put k v m) = find k2 m.
Proof.
  intros N. apply str_eqb_neq in N. induction m as [|[k' v'] m IH]; cbn.
  - now rewrite N.
  - destruct (str_ltb k k'); cbn; [now rewrite N|].
    destruct (str_eqb k k') eqn:E; cbn.
    + apply str_eqb_iff in E. subst. now rewrite N.
    + destruct (str_eqb k2 k'); auto.
Qed.
Lemma find_put k k2 (v : V) m : find k2 (put k v m) = if str_eqb k2 k then Some v else find k2 m.
Proof.
  destruct (str_eqb k2 k) eqn:E.
  - apply str_eqb_iff in E. subst. apply find_put_eq.
  - apply find_put_neq. now apply str_eqb_neq.
Qed.
Lemma find_del_neq k k2 m : k2 <> k -> find k2 (del k m) = find k2 m.
Proof.
  intros N. induction m as [|[k' v'] m IH]; cbn; auto.
  destruct (str_eqb k k') eqn:E; cbn.
  - apply str_eqb_iff in E. subst. apply str_eqb_neq in N. now rewrite N.
  - destruct (str_eqb k2 k'); auto.
Qed.

Lemma find_In k m v : find k m = Some v -> In (k, v) m.
Proof.
  induction m as [|[k' v'] m IH]; cbn; [discriminate|].
  destruct (str_eqb k k') eqn:E; intros H.
  - apply str_eqb_iff in E. inversion H. subst. now left.
  - right. auto.
Qed.
Lemma find_None k m : find k m = None <-> ~ In k (keys m).
Proof.
  induction m as [|[k' v'] m IH]; cbn; [tauto|].
  destruct (str_eqb k k') eqn:E.
  - apply str_eqb_iff in E. subst. split; [discriminate|]. intros H. destruct H. now left.
  - rewrite IH. apply str_eqb_neq in E. split; [intros H [H2|H2]; [congruence|auto]|tauto].
Qed.

Definition sorted m : Prop := StronglySorted str_lt (keys m).
Lemma sorted_nil : sorted [].
Proof. constructor. Qed.
Lemma sorted_NoDup m : sorted m -> NoDup (keys m).
Proof.
  unfold sorted. induction (keys m) as [|k l IH]; intros H; constructor; inversion H; subst; auto.
  intros HI. rewrite Forall_forall in H3. apply H3 in HI. now apply str_lt_irrefl in HI.
Qed.
Lemma keys_put_in k (v : V) m x : In x (keys (put k v m)) -> x = k \/ In x (keys m).
Proof.
  induction m as [|[k' v'] m IH]; cbn; [intuition|].
  destruct (str_ltb k k'); cbn; [intuition|]. destruct (str_eqb k k') eqn:E; cbn; [intuition|].
  intros [H|H]; [tauto|]. apply IH in H. tauto.
Qed.
Lemma put_in k (v : V) m x : In x (put k v m) -> x = (k, v) \/ In x m.
Proof.
  induction m as [|[k' v'] m IH]; cbn; [intuition|].
  destruct (str_ltb k k'); cbn; [intuition|]. destruct (str_eqb k k') eqn:E; cbn; [intuition|].
  intros [H|H]; [tauto|]. apply IH in H. tauto.
Qed.
Lemma sorted_put k (v : V) m : sorted m -> sorted (put k v m).
Proof.
  unfold sorted. induction m as [|[k' v'] m IH]; cbn.
  - intros _. repeat constructor.
  - intros H. inversion H; subst. destruct (str_ltb k k') eqn:L; cbn.
    + constructor; auto. constructor; auto. eapply Forall_impl; [|exact H3].
      intros a Ha. eapply str_lt_trans; eauto.
    + destruct (str_eqb k k') eqn:E; cbn.
      * apply str_eqb_iff in E. subst. constructor; auto.
      * constructor; auto. apply Forall_forall. intros x Hx. apply keys_put_in in Hx.
        destruct Hx as [->|Hx]; [now apply str_lt_total|].
        rewrite Forall_forall in H3. auto.
Qed.
Lemma del_in k m x : In x (del k m) -> In x m.
Proof.
  induction m as [|[k' v'] m IH]; cbn; auto.
  destruct (str_eqb k k'); cbn; auto. intros [H|H]; auto.
Qed.
Lemma sorted_del k m : sorted m -> sorted (del k m).
Proof.
  unfold sorted. induction m as [|[k' v'] m IH]; cbn; auto.
  intros H. inversion H; subst. destruct (str_eqb k k'); cbn; auto.
  constructor; auto. apply Forall_forall. intros x Hx. rewrite Forall_forall in H3. apply H3.
  unfold keys in *. apply in_map_iff in Hx. destruct Hx as (y & <- & Hy). apply in_map. eapply del_in; eauto.
Qed.
Lemma find_del_eq k m : sorted m -> find k (del k m) = None.
Proof.
  intros H. apply sorted_NoDup in H. induction m as [|[k' v'] m IH]; cbn; auto.
  cbn in H. inversion H; subst. destruct (str_eqb k k') eqn:E; cbn.
  - apply str_eqb_iff in E. subst. now apply find_None.
  - rewrite E. auto.
Qed.
Lemma find_del k k2 m : sorted m -> find k2 (del k m) = if str_eqb k2 k then None else find k2 m.
Proof.
  intros S. destruct (str_eqb k2 k) eqn:E.
  - apply str_eqb_iff in E. subst. now apply find_del_eq.
  - apply find_del_neq. now apply str_eqb_neq.
Qed.
Lemma In_find k v m : sorted m -> In (k, v) m -> find k m = Some v.
Proof.
  intros H. apply sorted_NoDup in H. induction m as [|[k' v'] m IH]; cbn; [tauto|].
  cbn in H. inversion H; subst. intros [E|E].
  - inversion E. subst. now rewrite str_eqb_refl.
  - destruct (str_eqb k k') eqn:E2; [|auto]. apply str_eqb_iff in E2. subst.
    exfalso. apply H2. change k' with (fst (k', v)). now apply in_map.
Qed.
Lemma find_ext m1 m2 : sorted m1 -> sorted m2 -> (forall k, find k m1 = find k m2) -> m1 = m2.
Proof.
  revert m2. induction m1 as [|[k v] m1 IH]; intros m2 S1 S2 H.
  - destruct m2 as [|[k v] m2]; auto. specialize (H k). cbn in H. rewrite str_eqb_refl in H. discriminate.
  - destruct m2 as [|[k2 v2] m2].
    { specialize (H k). cbn in H. rewrite str_eqb_refl in H. discriminate. }
    pose proof S1 as S1'. pose proof S2 as S2'. unfold sorted in S1', S2'. cbn in S1', S2'.
    inversion S1'; inversion S2'; subst. rewrite Forall_forall in *.
    assert (k = k2).
    { destruct (str_dec k k2) as [|N]; auto. exfalso.
      pose proof (H k) as Ha. pose proof (H k2) as Hb. cbn in Ha, Hb. rewrite str_eqb_refl in Ha, Hb.
      pose proof N as N'. apply str_eqb_neq in N'. rewrite N' in Ha. rewrite str_eqb_sym, N' in Hb.
      symmetry in Ha. apply find_In in Ha. apply find_In in Hb.
      assert (str_lt k2 k) by (apply H7; change k with (fst (k, v)); now apply in_map).
      assert (str_lt k k2) by (apply H3; change k2 with (fst (k2, v2)); now apply in_map).
      eapply str_lt_irrefl, str_lt_trans; eauto. }
    subst k2. pose proof (H k) as Hk. cbn in Hk. rewrite str_eqb_refl in Hk. inversion Hk. subst. f_equal.
    apply IH; auto. intros x. specialize (H x). cbn in H.
    destruct (str_eqb x k) eqn:E; auto. apply str_eqb_iff in E. subst.
    assert (forall m, Forall (str_lt k) (keys m) -> find k m = @None V) as Q.
    { intros m HF. apply find_None. intros HI. rewrite Forall_forall in HF. apply HF in HI. now apply str_lt_irrefl in HI. }
    rewrite !Q; auto; now apply Forall_forall.
Qed.

Lemma position_nth m : sorted m -> forall i, (i < length m)%nat ->
  position (nth i (keys m) []) m = Some (Z.of_nat i).
Proof.
  intros H. apply sorted_NoDup in H. unfold keys in *. induction m as [|[k v] m IH]; cbn; [lia|].
  cbn in H. inversion H; subst. intros [|i] Hi; [now rewrite str_eqb_refl|].
  assert (Hi' : (i < length m)%nat) by lia. cbn.
  destruct (str_eqb (nth i (map fst m) []) k) eqn:E.
  - apply str_eqb_iff in E. exfalso. apply H2. rewrite <- E. apply nth_In. rewrite map_length. auto.
  - rewrite (IH H3 i Hi'). cbn [option_map]. f_equal. lia.
Qed.
Lemma position_Some k m i : position k m = Some i -> 0 <= i < Z.of_nat (length m) /\ nth (Z.to_nat i) (keys m) [] = k.
Proof.
  revert i. induction m as [|[k' v] m IH]; cbn [position length keys map fst]; [discriminate|].
  intros i. destruct (str_eqb k k') eqn:E.
  - intros H. inversion H. subst. apply str_eqb_iff in E. split; [lia|auto].
  - destruct (position k m) as [j|]; cbn [option_map]; [|discriminate]. intros H. assert (i = 1 + j) as -> by congruence.
    destruct (IH j eq_refl) as [A B]. split; [lia|]. replace (Z.to_nat (1 + j)) with (S (Z.to_nat j)) by lia.
    exact B.
Qed.
Lemma position_None k m : position k m = None <-> find k m = None.
Proof.
  induction m as [|[k' v] m IH]; cbn; [tauto|].
  destruct (str_eqb k k'); [split; discriminate|]. destruct (position k m); cbn; rewrite <- IH; split; congruence.
Qed.
End Maps.
