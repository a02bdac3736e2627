From Coq Require Import ZArith Ascii String List Bool Reals Lra Lia FunctionalExtensionality.
From Verif Require Import M_Base M_Names M_Exec M_Real M_Season L_Season.
Import ListNotations.
Open Scope R_scope.

(** * Values that are read *)
Section Read.
Variables (p y : nat).
Hypothesis P2 : (2 <= p)%nat.
Hypothesis Y3 : (3 <= y)%nat.
Hypothesis Ev : Nat.even p = true.
Variables (c : R) (s : nat -> R).
Hypothesis C0 : c <> 0.
Hypothesis S0 : forall f, s f <> 0.
Hypothesis Pr : periodic p s.
Hypothesis Tot : total reals (seq 0 p) s = IZR (Z.of_nat p).
Variable vec : nat -> R.
Hypothesis V : forall f, (f < nb p y)%nat -> vec f = c * s f.
Definition h (f : nat) : R := 100 * s f.
Lemma h_periodic : periodic p h. Proof. intros f. unfold h. rewrite Pr. reflexivity. Qed.
Lemma h_total : total reals (seq 0 p) h = IZR (Z.of_nat p) * 100.
Proof. unfold h. rewrite total_scale, Tot. rr. ring. Qed.
Lemma cs_periodic : periodic p (fun f => c * s f). Proof. intros f. cbv beta. rewrite Pr. reflexivity. Qed.
Lemma ratios_h : agrees h (ratios reals p y vec) (p / 2) (nb p y - p / 2).
Proof.
  intros f Hf. pose proof (even_half p Ev) as H2. unfold ratios, within. replace (Nat.leb (p / 2) f) with true by (symmetry; apply Nat.leb_le; lia). replace (Nat.ltb f (nb p y - p / 2)) with true by (symmetry; apply Nat.ltb_lt; lia).
  cbn [andb]. rr. replace (ai reals p vec f) with (ai reals p (fun f => c * s f) f).
  - rewrite (ai_periodic p y P2 Y3 (fun f => c * s f) f Ev cs_periodic) by lia. rewrite total_scale, Tot, V by lia. unfold h. assert (IZR (Z.of_nat p) <> 0) by (apply not_0_IZR; lia). field. split; assumption.
  - unfold ai. rr. rewrite !V by lia. f_equal. apply total_ext. intros m Hm. apply in_seq in Hm. rr. rewrite V by lia. reflexivity.
Qed.
Lemma first_h : agrees h (first_bi reals p y vec) 0 (nb p y).
Proof.
  unfold first_bi. rewrite fold_same.
  - apply smooth5_same; auto using h_periodic. apply centred_same; auto using h_periodic, h_total. apply ends_same; auto using h_periodic, ratios_h.
  - intros m Hm. apply in_seq in Hm. apply (month_first_same p y P2 Y3 h); auto using h_periodic, ratios_h; lia.
Qed.
Lemma over_h b f : (f < nb p y)%nat -> b f = h f -> 100 * vec f / b f = c.
Proof. intros Hf ->. rewrite V by exact Hf. unfold h. field. apply S0. Qed.
Lemma second_h : agrees h (second_bi reals p y vec) 0 (nb p y).
Proof.
  unfold second_bi. rr.
  set (ci := fun f => 100 * vec f / first_bi reals p y vec f). set (c1 := spencer reals p y ci). set (i1 := fun f => 100 * ci f / c1 f).
  assert (Ci : forall f, (f < nb p y)%nat -> ci f = c) by (intros f Hf; apply over_h; [exact Hf|apply first_h; lia]).
  assert (C1 : forall f, (f < nb p y)%nat -> c1 f = c) by (intros f Hf; apply spencer_same; auto).
  assert (I1 : forall f, (f < nb p y)%nat -> i1 f = 100) by (intros f Hf; unfold i1; rewrite Ci, C1 by exact Hf; field; exact C0).
  set (b := fun f => 100 * vec f / c1 f).
  assert (B : agrees h b 0 (nb p y)) by (intros f Hf; unfold b, h; rewrite C1, V by lia; field; exact C0).
  assert (B2 : agrees h (centred reals p (fold_left (month_all reals p y) (seq 0 p) b)) 0 (nb p y)).
  { rewrite fold_same; [apply centred_same; auto using h_periodic, h_total|]. intros m Hm. apply in_seq in Hm. apply (month_all_same p y P2 Y3 h); auto using h_periodic; lia. }
  change (agrees h (if le_f reals (total reals (seq 1 (nb p y - 1)) (fun f => Rabs (i1 f - i1 (f - 1)%nat) / IZR (Z.of_nat (nb p y) - 1))) 2
    then smooth5 reals p y (centred reals p (fold_left (month_all reals p y) (seq 0 p) b)) else smooth7 reals p y (centred reals p (fold_left (month_all reals p y) (seq 0 p) b))) 0 (nb p y)).
  rewrite total_zero.
  - unfold le_f. replace (lt reals 0 2) with true by (symmetry; rr; unfold r_lt; destruct (Rlt_dec 0 2); [reflexivity|lra]). cbn [orb]. apply smooth5_same; auto using h_periodic.
  - intros f Hf. apply in_seq in Hf. rr. rewrite !I1 by lia. replace (100 - 100) with 0 by ring. rewrite Rabs_R0. unfold Rdiv. ring.
Qed.
Lemma DS_vec_h shift : exists v c1 i1 season, DS_vec reals p y vec shift = Ok (v, c1, i1, season) /\
  (forall f, (f < nb p y)%nat -> v f = c - shift /\ c1 f = c - shift /\ i1 f = 100) /\ (forall m, (m < p)%nat -> season m = 100 * s m).
Proof.
  unfold DS_vec. replace (Nat.ltb y 3) with false by (symmetry; apply Nat.ltb_ge; exact Y3). do 4 eexists. split; [reflexivity|]. rr.
  assert (Ci : forall f, (f < nb p y)%nat -> 100 * vec f / second_bi reals p y vec f = c) by (intros f Hf; apply over_h; [exact Hf|apply second_h; lia]).
  assert (C1 : forall f, (f < nb p y)%nat -> spencer reals p y (fun f => 100 * vec f / second_bi reals p y vec f) f = c) by (intros f Hf; apply spencer_same; auto).
  split.
  - intros f Hf. rewrite Ci, C1 by exact Hf. repeat split. field. exact C0.
  - intros m Hm. rewrite !second_h by (unfold nb; nia). rewrite !(col_periodic p y P2 Y3 h _ _ h_periodic). unfold h. lra.
Qed.
End Read.

(** * A series in three parts: not numbers, numbers, the rest *)
Definition stops (t : list R) : Prop := match t with [] => True | x :: _ => num reals x = false end.
Lemma leading_app q (a b : list R) : Forall (fun x => q x = true) a -> match b with [] => True | x :: _ => q x = false end -> leading reals q (a ++ b) = length a.
Proof.
  induction 1 as [|x a Hx _ IH]; intros B; cbn [app leading length]; [destruct b as [|x b]; [reflexivity|]; cbn [leading]; rewrite B; reflexivity|]. rewrite Hx, IH by exact B. reflexivity.
Qed.
Lemma leading_split q (l : list R) : exists a t, l = a ++ t /\ Forall (fun x => q x = true) a /\ match t with [] => True | x :: _ => q x = false end.
Proof.
  induction l as [|x l (a & t & -> & Ha & Ht)]; [exists [], []; split; [reflexivity|split; constructor]|]. destruct (q x) eqn:E.
  - exists (x :: a), t. split; [reflexivity|]. split; [constructor; assumption|exact Ht].
  - exists [], (x :: a ++ t). split; [reflexivity|]. split; [constructor|exact E].
Qed.
Lemma three_parts (l : list R) : exists a b t, l = a ++ b ++ t /\ Forall (fun x => num reals x = false) a /\ Forall (fun x => num reals x = true) b /\ stops t /\ (b = [] -> t = []).
Proof.
  destruct (leading_split (fun x => negb (num reals x)) l) as (a & t & -> & Ha & Ht). destruct (leading_split (num reals) t) as (b & u & -> & Hb & Hu).
  exists a, b, u. split; [reflexivity|]. split; [eapply Forall_impl; [|exact Ha]; intros x H; apply negb_true_iff; exact H|]. split; [exact Hb|]. split; [exact Hu|].
  intros ->. cbn [app] in Ht. destruct u as [|x u]; [reflexivity|]. apply negb_false_iff in Ht. rewrite Hu in Ht. discriminate Ht.
Qed.
Section Parts.
Variables (p : nat) (a b t : list R).
Hypothesis Ha : Forall (fun x => num reals x = false) a.
Hypothesis Hb : Forall (fun x => num reals x = true) b.
Hypothesis Ht : stops t.
Hypothesis Hbt : b = [] -> t = [].
Definition low : R := fold_left (fmin reals) b 0.
Definition the_shift : R := if r_lt low 0 then -11 / 10 * low else 0.
Definition full : nat := (length b / p * p)%nat.
Definition used : list R := skipn (length b - full) (if r_lt low 0 then map (fun x => x + the_shift) b else b).
Definition lag : nat := (length a + (length b - full))%nat.
Lemma full_le : (full <= length b)%nat. Proof. unfold full. destruct p as [|q]; [rewrite Nat.mul_0_r; lia|]. rewrite Nat.mul_comm. apply Nat.mul_div_le. lia. Qed.
Lemma used_length : length used = full.
Proof. unfold used. rewrite skipn_length. pose proof full_le. destruct (r_lt low 0); rewrite ?map_length; lia. Qed.
Definition test_of (eps : R) (u : list R) (lg : nat) : bool :=
  let n := length u in
  let vec := fun g => nth (g - lg) u 0 in
  let ti0 := fun f => total reals (filter (fun g => Nat.eqb (g mod p) f) (seq (lg + 1) (n - 2))) (fun g => 200 * vec g / (vec (g - 1)%nat + vec (g + 1)%nat)) in
  let nj := Z.of_nat (n / p) in
  let ti := fun f => if (Nat.eqb f 0 || Nat.eqb f 11)%bool then ti0 f / IZR (nj - 1) else ti0 f / IZR nj in
  r_lt eps (Rabs (fold_left (fun x f => fmax reals x (ti f)) (seq 0 p) 0 - fold_left (fun x f => fmin reals x (ti f)) (seq 0 p) 150)).
Lemma DS_test_parts eps : DS_test reals eps p (a ++ b ++ t) = (test_of eps used lag, repeat r_na lag ++ used ++ t, lag, full, the_shift).
Proof.
  unfold DS_test. rr.
  assert (B : leading reals (fun x => negb (num reals x)) (a ++ b ++ t) = length a).
  { apply leading_app; [eapply Forall_impl; [|exact Ha]; intros x H; apply negb_true_iff; exact H|]. destruct b as [|x b']; [rewrite Hbt by reflexivity; exact I|]. inversion Hb as [|? ? Hx _]; subst. cbn [app]. rewrite Hx. reflexivity. }
  change (F reals) with R in B. rewrite B. rewrite skipn_app, skipn_all, Nat.sub_diag. cbn [app skipn]. rewrite (leading_app (num reals) b t Hb Ht).
  replace (length a + length b - length a)%nat with (length b) by lia. rewrite firstn_app, Nat.sub_diag, firstn_all. cbn [firstn]. rewrite app_nil_r.
  rewrite firstn_app, Nat.sub_diag, firstn_all. cbn [firstn]. rewrite app_nil_r.
  replace (skipn (length a + length b) (a ++ b ++ t)) with t by (rewrite app_assoc, <- app_length, skipn_app, skipn_all, Nat.sub_diag; reflexivity).
  rr. change (fold_left (fmin reals) b (IZR 0)) with low. fold the_shift. change (length b / p * p)%nat with full.
  pose proof full_le as FL. replace (length a + length b - full)%nat with lag by (unfold lag; lia).
  match goal with |- context [@app R ?x ?z] => match x with repeat _ lag => set (l2 := @app R x z) end end.
  assert (E : l2 = repeat r_na lag ++ used ++ t).
  { unfold l2. change (na reals) with r_na. f_equal. unfold lag, used. destruct (r_lt low 0).
    - rewrite skipn_app. rewrite skipn_all2 by lia. cbn [app]. rewrite skipn_app. replace (length a + (length b - full) - length a)%nat with (length b - full)%nat by lia.
      f_equal. rewrite map_length. replace (length b - full - length b)%nat with O by lia. reflexivity.
    - rewrite skipn_app. rewrite skipn_all2 by lia. cbn [app]. rewrite skipn_app. replace (length a + (length b - full) - length a)%nat with (length b - full)%nat by lia.
      f_equal. replace (length b - full - length b)%nat with O by lia. reflexivity. }
  replace (length a + length b - lag)%nat with full by (unfold lag; lia). rewrite E.
  assert (N : forall g, (lag <= g < lag + full)%nat -> nth g (repeat r_na lag ++ used ++ t) 0 = nth (g - lag) used 0).
  { intros g Hg. rewrite app_nth2 by (rewrite repeat_length; lia). rewrite repeat_length. apply app_nth1. rewrite used_length. lia. }
  do 4 f_equal. unfold test_of. rewrite used_length. do 2 f_equal. 
  assert (T : forall f, total reals (filter (fun g => (g mod p =? f)%nat) (seq (lag + 1) (full - 2))) (fun g => 200 * nth g (repeat r_na lag ++ used ++ t) 0 / (nth (g - 1) (repeat r_na lag ++ used ++ t) 0 + nth (g + 1) (repeat r_na lag ++ used ++ t) 0))
    = total reals (filter (fun g => (g mod p =? f)%nat) (seq (lag + 1) (full - 2))) (fun g => 200 * nth (g - lag) used 0 / (nth (g - 1 - lag) used 0 + nth (g + 1 - lag) used 0))).
  { intros f. apply total_ext. intros g Hg. apply filter_In in Hg as [Hg _]. apply in_seq in Hg. rewrite !N by lia. reflexivity. }
  f_equal.
  - match goal with |- fold_left ?u _ _ = fold_left ?v _ _ => replace u with v; [reflexivity|] end. apply functional_extensionality. intros x. apply functional_extensionality. intros f. rewrite T. reflexivity.
  - match goal with |- fold_left ?u _ _ = fold_left ?v _ _ => replace u with v; [reflexivity|] end. apply functional_extensionality. intros x. apply functional_extensionality. intros f. rewrite T. reflexivity.
Qed.
End Parts.
