(** Lemmas on one vector of values. *)
From Coq Require Import ZArith Ascii String List Bool Lia.
From Verif Require Import M_Base M_Time M_Names M_Lex M_Compile M_Bytes M_Exec M_Kdb M_Vars L_Kdb2.
Import ListNotations.
Open Scope Z_scope.
Local Arguments Z.add : simpl never.
Local Arguments Z.sub : simpl never.

Section L.
Variable A : arith.
Variable tiny : F A.
Notation val := (F A).
Notation variable := (list (F A)).
Notation len := (fun v : variable => Z.of_nat (length v)).
Implicit Types v dst src : variable.

Lemma read_Some v t x : read A v t = Some x -> 0 <= t < len v.
Proof.
  unfold read. destruct (t <? 0) eqn:E; [discriminate|]. apply Z.ltb_ge in E. intros H.
  assert ((Z.to_nat t < length v)%nat) by (apply nth_error_Some; congruence). lia.
Qed.
Lemma read_in v t : 0 <= t < len v -> exists x, read A v t = Some x.
Proof.
  intros H. unfold read. destruct (t <? 0) eqn:E; [apply Z.ltb_lt in E; lia|].
  destruct (nth_error v (Z.to_nat t)) eqn:N; eauto. apply nth_error_None in N. lia.
Qed.
Lemma read_out v t : t < 0 \/ len v <= t -> read A v t = None.
Proof.
  intros H. destruct (read A v t) eqn:E; auto. apply read_Some in E. lia.
Qed.
Lemma write_in v t x : 0 <= t < len v -> write A v t x = Some (upd_list (Z.to_nat t) (fun _ => x) v).
Proof. intros H. unfold write. destruct (read_in v t H) as [y ->]. reflexivity. Qed.
Lemma write_Some v t x v' : write A v t x = Some v' -> 0 <= t < len v /\ v' = upd_list (Z.to_nat t) (fun _ => x) v.
Proof.
  unfold write. destruct (read A v t) eqn:E; [|discriminate]. apply read_Some in E. intros H. inversion H. auto.
Qed.
Lemma nth_error_upd {B} i (f : B -> B) l j :
  nth_error (upd_list i f l) j = if Nat.eqb j i then option_map f (nth_error l i) else nth_error l j.
Proof.
  revert i j. induction l as [|a l IH]; intros [|i] [|j]; cbn; auto.
  destruct (Nat.eqb j i); auto.
Qed.
Lemma write_read v t x v' : write A v t x = Some v' ->
  length v' = length v /\ forall u, read A v' u = if u =? t then Some x else read A v u.
Proof.
  intros H. apply write_Some in H. destruct H as [H ->]. split; [apply upd_list_length|].
  intros u. unfold read. destruct (u <? 0) eqn:E.
  - apply Z.ltb_lt in E. destruct (Z.eqb_spec u t); auto. lia.
  - apply Z.ltb_ge in E. rewrite nth_error_upd. destruct (Z.eqb_spec u t) as [->|N].
    + rewrite Nat.eqb_refl. destruct (read_in v t H) as [y Hy]. unfold read in Hy.
      destruct (t <? 0); [discriminate|]. now rewrite Hy.
    + destruct (Nat.eqb_spec (Z.to_nat u) (Z.to_nat t)); auto. lia.
Qed.
Lemma read_ext v v' : (forall t, read A v t = read A v' t) -> v = v'.
Proof.
  revert v'. induction v as [|x v IH]; intros v' H.
  - destruct v' as [|y v']; auto. specialize (H 0). discriminate.
  - destruct v' as [|y v']; [specialize (H 0); discriminate|].
    pose proof (H 0) as H0. cbn in H0. inversion H0. subst. f_equal. apply IH. intros t.
    destruct (Z.ltb_spec t 0).
    + rewrite !read_out; auto.
    + specialize (H (t + 1)). unfold read in *. destruct (t + 1 <? 0) eqn:E; [apply Z.ltb_lt in E; lia|].
      destruct (t <? 0) eqn:E2; [apply Z.ltb_lt in E2; lia|].
      replace (Z.to_nat (t + 1)) with (S (Z.to_nat t)) in H by lia. exact H.
Qed.
Lemma read_repeat x n t : read A (repeat x n) t = if (0 <=? t) && (t <? Z.of_nat n) then Some x else None.
Proof.
  destruct (0 <=? t) eqn:E1, (t <? Z.of_nat n) eqn:E2; cbn [andb];
    rewrite ?Z.leb_le, ?Z.leb_gt, ?Z.ltb_lt, ?Z.ltb_ge in *; try (apply read_out; rewrite repeat_length; lia).
  unfold read. destruct (t <? 0) eqn:E; [apply Z.ltb_lt in E; lia|]. apply nth_error_repeat. lia.
Qed.

Lemma copy_range_spec n : forall dst src i j, 0 <= i -> 0 <= j ->
  i + Z.of_nat n <= len dst -> j + Z.of_nat n <= len src ->
  exists dst', copy_range A n dst src i j = Some dst' /\ length dst' = length dst /\
    forall t, read A dst' t = if (i <=? t) && (t <? i + Z.of_nat n) then read A src (t - i + j) else read A dst t.
Proof.
  induction n as [|n IH]; intros dst src i j Hi Hj Hd Hs; cbn [copy_range].
  - exists dst. split; [auto|]. split; auto. intros t. destruct (Z.leb_spec i t); cbn [andb]; auto.
    destruct (Z.ltb_spec t (i + Z.of_nat 0)); auto. lia.
  - destruct (read_in src j) as [x Hx]; [lia|]. rewrite Hx.
    pose proof (write_in dst i x ltac:(lia)) as Hw. rewrite Hw. pose proof (write_read _ _ _ _ Hw) as [Hl Hr].
    destruct (IH (upd_list (Z.to_nat i) (fun _ => x) dst) src (i + 1) (j + 1)) as (dst' & E & L & R); try lia.
    exists dst'. split; auto. split; [congruence|]. intros t. rewrite R, Hr.
    destruct (Z.eqb_spec t i) as [->|N].
    + replace (i - i + j) with j by lia. rewrite Hx.
      destruct (Z.leb_spec (i + 1) i); [lia|]. destruct (Z.leb_spec i i); [|lia].
      destruct (Z.ltb_spec i (i + Z.of_nat (S n))); [|lia]. reflexivity.
    + replace (t - (i + 1) + (j + 1)) with (t - i + j) by lia.
      destruct (Z.leb_spec (i + 1) t), (Z.leb_spec i t); cbn [andb]; try lia; auto.
      destruct (Z.ltb_spec t (i + 1 + Z.of_nat n)), (Z.ltb_spec t (i + Z.of_nat (S n))); auto; lia.
Qed.
Lemma copy_range_length n : forall dst src i j dst', copy_range A n dst src i j = Some dst' -> length dst' = length dst.
Proof.
  induction n as [|n IH]; intros dst src i j dst' H; cbn [copy_range] in H.
  - now inversion H.
  - destruct (read A src j) as [x|]; [|discriminate]. destruct (write A dst i x) as [d|] eqn:W; [|discriminate].
    apply IH in H. apply write_read in W. destruct W as [W _]. congruence.
Qed.

Lemma firstZ_spec n : forall v, (n <= length v)%nat -> firstZ A n v = Some (firstn n v).
Proof.
  induction n as [|n IH]; intros v H; cbn [firstZ firstn]; auto.
  destruct v as [|x v]; cbn in H; [lia|]. now rewrite IH by lia.
Qed.

(** [KV_set] keeps the length. *)
Lemma kv_set_length pernb v t m x v' : kv_set A pernb v t m x = Some v' -> length v' = length v.
Proof.
  unfold kv_set. destruct m; intros H;
  repeat match type of H with
  | (if ?b then _ else _) = _ => destruct b
  | (match ?b with _ => _ end) = _ => destruct b; [|discriminate]
  end; try (injection H as <-; auto); try (apply write_read in H; apply H); auto.
Qed.
Lemma kv_set_bounds pernb v t m x : 0 <= t < len v -> 0 <= pernb -> exists v', kv_set A pernb v t m x = Some v'.
Proof.
  intros H Hp. unfold kv_set.
  assert (W : forall y, exists v', write A v t y = Some v') by (intros y; rewrite write_in; eauto).
  destruct m; cbn [lag_of]; auto; destruct (Z.ltb_spec t 1); eauto; destruct (Z.ltb_spec t pernb); eauto;
    try (destruct (read_in v (t - 1)) as [b ->]; [lia|]; auto);
    try (destruct (read_in v (t - pernb)) as [b ->]; [lia|]; auto).
Qed.
Lemma kv_get_bounds pernb v t m : 0 <= t < len v -> 0 <= pernb -> exists x, kv_get A tiny pernb v t m = Some x.
Proof.
  intros H Hp. unfold kv_get. destruct (read_in v t H) as [a ->].
  destruct m; cbn [lag_of]; eauto; destruct (Z.ltb_spec t 1); eauto; destruct (Z.ltb_spec t pernb); eauto;
    try (destruct (read_in v (t - 1)) as [b ->]; [lia|]; eauto);
    try (destruct (read_in v (t - pernb)) as [b ->]; [lia|]; eauto).
Qed.
(** A reading changes no other period. *)
Lemma kv_set_only pernb v t m x v' u : kv_set A pernb v t m x = Some v' -> u <> t -> read A v' u = read A v u.
Proof.
  intros H N. assert (W : forall y, write A v t y = Some v' -> read A v' u = read A v u).
  { intros y Hy. apply write_read in Hy. destruct Hy as [_ ->]. destruct (Z.eqb_spec u t); congruence. }
  unfold kv_set in H. destruct m; try (eapply W; eauto; fail);
  repeat match type of H with
  | (if ?b then _ else _) = _ => destruct b
  | (match ?b with _ => _ end) = _ => destruct b; [|discriminate]
  end; try (injection H as <-; auto); eapply W; eauto.
Qed.

(** [KV_init_values_1]. *)
Lemma init_tm1_bounds v t : 0 <= t < len v -> exists v', init_tm1 A v t = Some v' /\ length v' = length v /\
  forall u, u <> t -> read A v' u = read A v u.
Proof.
  intros H. unfold init_tm1, previous. 
  assert (exists b, (if t <? 1 then Some (na A) else read A v (t - 1)) = Some b) as [b ->].
  { destruct (Z.ltb_spec t 1); eauto. apply read_in. lia. }
  eexists. split; [apply write_in; auto|]. split; [apply upd_list_length|]. intros u N.
  pose proof (write_in v t (if num A b then b else ofZ A 1) H) as W. apply write_read in W. destruct W as [_ ->].
  destruct (Z.eqb_spec u t); congruence.
Qed.
Lemma init_extra_bounds v t : 0 <= t < len v -> exists v', init_extra A v t = Some v' /\ length v' = length v /\
  forall u, u <> t -> read A v' u = read A v u.
Proof.
  intros H. unfold init_extra, previous.
  assert (exists b, (if t <? 1 then Some (na A) else read A v (t - 1)) = Some b) as [b ->].
  { destruct (Z.ltb_spec t 1); eauto. apply read_in. lia. }
  assert (exists c, (if t <? 2 then Some (na A) else read A v (t - 2)) = Some c) as [c ->].
  { destruct (Z.ltb_spec t 2); eauto. apply read_in. lia. }
  assert (W : forall y, exists v', write A v t y = Some v' /\ length v' = length v /\ forall u, u <> t -> read A v' u = read A v u).
  { intros y. pose proof (write_in v t y H) as W. eexists. split; eauto. apply write_read in W. destruct W as [W1 W2].
    split; auto. intros u N. rewrite W2. destruct (Z.eqb_spec u t); congruence. }
  destruct (num A b); auto.
Qed.
Lemma kv_init_bounds v t m : 0 <= t < len v -> exists v', kv_init A tiny v t m = Some v' /\ length v' = length v /\
  forall u, u <> t -> read A v' u = read A v u.
Proof.
  intros H. unfold kv_init. destruct (read_in v t H) as [x ->].
  pose proof (init_tm1_bounds v t H). pose proof (init_extra_bounds v t H).
  assert (exists v', Some v = Some v' /\ length v' = length v /\ forall u, u <> t -> read A v' u = read A v u) by eauto.
  destruct m; auto; destruct (num A x && negb (is_0 A tiny x)); auto; destruct (num A x); auto.
Qed.
Lemma kv_init_loop_bounds n : forall v t m, 0 <= t -> t + Z.of_nat n <= len v ->
  exists v', kv_init_loop A tiny n v t m = Some v' /\ length v' = length v /\
  forall u, u < t \/ t + Z.of_nat n <= u -> read A v' u = read A v u.
Proof.
  induction n as [|n IH]; intros v t m H1 H2; cbn [kv_init_loop].
  - eauto.
  - destruct (kv_init_bounds v t m) as (v1 & -> & L1 & R1); [lia|].
    destruct (IH v1 (t + 1) m) as (v2 & -> & L2 & R2); try lia.
    exists v2. split; auto. split; [congruence|]. intros u Hu. rewrite R2 by lia. apply R1. lia.
Qed.
End L.
