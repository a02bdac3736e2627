(** Lemmas on the loops of the change of periodicity: high to low. *)
From Coq Require Import ZArith Ascii String List Bool Lia.
From Verif Require Import M_Base M_Time M_Names M_Lex M_Compile M_Bytes M_Exec M_Kdb M_Vars M_Freq S_Time S_Freq
  L_Time L_Kdb L_Vars L_Vars5.
Import ListNotations.
Open Scope Z_scope.
Local Arguments Z.add : simpl never.
Local Arguments Z.sub : simpl never.
Local Arguments Z.mul : simpl never.

Section L.
Context (A : arith).
Notation F := (F A). Notation na := (na A). Notation num := (num A).
Implicit Types v from to : list F.

Lemma get_at_ok v i x : get_at A v i = Ok x <-> read A v i = Some x.
Proof. unfold get_at. destruct (read A v i); split; intros H; inversion H; auto. Qed.
Lemma get_at_in v i : 0 <= i < Z.of_nat (length v) -> exists x, get_at A v i = Ok x /\ read A v i = Some x.
Proof. intros H. destruct (read_in A v i H) as [x Hx]. exists x. split; auto. now apply get_at_ok. Qed.
Lemma put_at_in v i x : 0 <= i < Z.of_nat (length v) -> exists v', put_at A v i x = Ok v' /\ length v' = length v /\
  forall u, read A v' u = if u =? i then Some x else read A v u.
Proof.
  intros H. pose proof (write_in A v i x H) as W. exists (upd_list (Z.to_nat i) (fun _ => x) v). unfold put_at. rewrite W.
  split; auto. now apply write_read in W.
Qed.

(** The list of the [n] values from [f] on. *)
Definition slice (f n : Z) (v : list F) : list F := firstn (Z.to_nat n) (skipn (Z.to_nat f) v).
Lemma slice_length f n v : 0 <= f -> 0 <= n -> f + n <= Z.of_nat (length v) -> Z.of_nat (length (slice f n v)) = n.
Proof. intros. unfold slice. rewrite firstn_length, skipn_length. lia. Qed.
Lemma nth_error_skipn {B} (l : list B) a k : nth_error (skipn a l) k = nth_error l (a + k).
Proof. revert l; induction a as [|a IH]; intros [|x l]; cbn; auto. now destruct k. Qed.
Lemma nth_error_firstn {B} (l : list B) a k : nth_error (firstn a l) k = if Nat.ltb k a then nth_error l k else None.
Proof.
  revert l k; induction a as [|a IH]; intros l k; cbn [firstn].
  - now destruct k.
  - destruct l as [|x l]; destruct k as [|k]; auto.
    + cbn [nth_error]. now destruct (Nat.ltb (S k) (S a)).
    + cbn [nth_error]. rewrite IH. reflexivity.
Qed.
Lemma slice_nth f n v k : 0 <= f -> nth_error (slice f n v) k = if Z.of_nat k <? n then read A v (f + Z.of_nat k) else None.
Proof.
  intros H. unfold slice. rewrite nth_error_firstn, nth_error_skipn.
  destruct (Nat.ltb_spec k (Z.to_nat n)), (Z.ltb_spec (Z.of_nat k) n); try lia; auto.
  rewrite read_nth by lia. f_equal. lia.
Qed.
Lemma slice_cons f n v x : 0 <= f -> 0 < n -> read A v f = Some x -> slice f n v = x :: slice (f + 1) (n - 1) v.
Proof.
  intros Hf Hn R. unfold slice. rewrite read_nth in R by lia. replace (Z.to_nat n) with (S (Z.to_nat (n - 1))) by lia.
  replace (Z.to_nat (f + 1)) with (S (Z.to_nat f)) by lia.
  remember (Z.to_nat f) as a eqn:E. clear E Hf. revert v R. induction a as [|a IH]; intros [|y v] R; cbn in R; try discriminate.
  - inversion R. reflexivity.
  - cbn [skipn]. rewrite IH by auto. reflexivity.
Qed.

Lemma sum_loop_spec n : forall v f acc, 0 <= f -> f + Z.of_nat n <= Z.of_nat (length v) ->
  sum_loop A n v f acc = Ok (let l := slice f (Z.of_nat n) v in if forallb num l then fold_left (M_Exec.add A) l acc else na).
Proof.
  induction n as [|n IH]; intros v f acc Hf Hl; cbn [sum_loop]; [reflexivity|].
  destruct (get_at_in v f ltac:(lia)) as (x & -> & R). cbn [rbind].
  rewrite (slice_cons f _ v x) by (lia || auto). replace (Z.of_nat (S n) - 1) with (Z.of_nat n) by lia.
  cbn [forallb fold_left]. destruct (num x); cbn [andb]; auto. rewrite IH by lia. reflexivity.
Qed.

Lemma last_nth {B} (l : list B) d : last l d = nth (pred (length l)) l d.
Proof. induction l as [|x [|y l] IH]; auto. Qed.
Lemma slice_last f n v : 0 <= f -> 0 < n -> f + n <= Z.of_nat (length v) -> get_at A v (f + n - 1) = Ok (last (slice f n v) na).
Proof.
  intros. destruct (get_at_in v (f + n - 1) ltac:(lia)) as (x & -> & R). f_equal.
  pose proof (slice_length f n v ltac:(lia) ltac:(lia) ltac:(lia)) as L.
  rewrite last_nth. pose proof (slice_nth f n v (pred (length (slice f n v))) ltac:(lia)) as N.
  destruct (Z.ltb_spec (Z.of_nat (pred (length (slice f n v)))) n); [|lia].
  replace (f + Z.of_nat (pred (length (slice f n v)))) with (f + n - 1) in N by lia. rewrite R in N.
  symmetry. now apply nth_error_nth with (d := na) in N.
Qed.

(** The value of one group. *)
Lemma group_value m f sh v : 0 <= f -> 0 < sh -> f + sh <= Z.of_nat (length v) ->
  (do w <- match m with HTOL_LAST => get_at A v (f + sh - 1) | _ => sum_loop A (Z.to_nat sh) v f (ofZ A 0) end;
   Ok (match m with HTOL_MEAN => if num w then dvd A w (ofZ A sh) else w | _ => w end))
  = Ok (aggregated A m (slice f sh v)).
Proof.
  intros Hf Hs Hl. unfold aggregated, total. rewrite slice_length by lia.
  destruct m; [rewrite slice_last by lia; reflexivity| |];
    rewrite sum_loop_spec by lia; rewrite Z2Nat.id by lia; cbn [rbind]; reflexivity.
Qed.

Lemma skip_loop_nothing sh to n : forall f, 0 <= f -> f + Z.of_nat n <= sh -> skip_loop A n f 0 sh to = Ok (to, 0).
Proof.
  induction n as [|n IH]; intros f Hf Hs; cbn [skip_loop]; auto.
  destruct (Z.eqb_spec f 0) as [->|N]; cbn [negb andb].
  - apply IH; lia.
  - rewrite Z.rem_small by lia. destruct (Z.eqb_spec f 0); [lia|]. apply IH; lia.
Qed.

Lemma fill_spec n : forall t to, 0 <= t -> t + Z.of_nat n <= Z.of_nat (length to) ->
  exists to', fill A n t to = Ok to' /\ length to' = length to /\
    forall u, read A to' u = if (t <=? u) && (u <? t + Z.of_nat n) then Some na else read A to u.
Proof.
  induction n as [|n IH]; intros t to Ht Hl; cbn [fill].
  - exists to. split; auto. split; auto. intros u. destruct (Z.leb_spec t u), (Z.ltb_spec u (t + Z.of_nat 0)); cbn [andb]; auto; lia.
  - destruct (put_at_in to t na ltac:(lia)) as (to1 & -> & L1 & R1). cbn [rbind].
    destruct (IH (t + 1) to1 ltac:(lia) ltac:(lia)) as (to2 & -> & L2 & R2). exists to2. split; auto. split; [congruence|].
    intros u. rewrite R2, R1.
    destruct (Z.leb_spec (t + 1) u), (Z.ltb_spec u (t + 1 + Z.of_nat n)), (Z.leb_spec t u), (Z.ltb_spec u (t + Z.of_nat (S n))),
      (Z.eqb_spec u t); cbn [andb]; auto; lia.
Qed.

(** The number of complete groups from [f] on. *)
Definition groups_from (nb sh f : Z) : Z := Z.max 0 ((nb - f) / sh).
Lemma groups_step nb sh f : 0 < sh -> f + sh <= nb -> groups_from nb sh f = 1 + groups_from nb sh (f + sh) /\ 0 <= nb - f - sh.
Proof.
  intros Hs H. unfold groups_from. replace (nb - f) with (1 * sh + (nb - (f + sh))) by lia. rewrite Z.div_add_l by lia.
  pose proof (Z.div_pos (nb - (f + sh)) sh ltac:(lia) ltac:(lia)). lia.
Qed.
Lemma groups_stop nb sh f : 0 < sh -> nb < f + sh -> groups_from nb sh f = 0.
Proof. intros Hs H. unfold groups_from. assert ((nb - f) / sh < 1) by (apply Z.div_lt_upper_bound; lia). lia. Qed.

Lemma htol_loop_spec m sh nb from : 0 < sh -> nb = Z.of_nat (length from) ->
  forall fuel f t to, nb - f <= Z.of_nat fuel -> 0 <= f -> 0 <= t -> t + groups_from nb sh f <= Z.of_nat (length to) ->
  (forall u, t <= u < Z.of_nat (length to) -> read A to u = Some (ofZ A 0)) ->
  exists to', htol_loop A fuel m sh nb from f t to = Ok (to', t + groups_from nb sh f) /\ length to' = length to /\
    forall u, read A to' u = if (t <=? u) && (u <? t + groups_from nb sh f)
                             then Some (aggregated A m (slice (f + (u - t) * sh) sh from)) else read A to u.
Proof.
  intros Hs En. induction fuel as [|k IH]; intros f t to Hk Hf Ht Hl Z0; cbn [htol_loop].
  - destruct (Z.leb_spec (f + sh) nb); [lia|]. rewrite groups_stop by lia. exists to. replace (t + 0) with t by lia.
    split; auto. split; auto. intros u. destruct (Z.leb_spec t u), (Z.ltb_spec u t); cbn [andb]; auto; lia.
  - destruct (Z.leb_spec (f + sh) nb) as [Hi|Hi].
    + destruct (groups_step nb sh f Hs Hi) as [G G0]. assert (0 <= groups_from nb sh (f + sh)) by (unfold groups_from; lia).
      unfold get_at at 1. rewrite Z0 by lia. cbn [rbind].
      pose proof (group_value m f sh from Hf Hs ltac:(lia)) as V.
      destruct (match m with HTOL_LAST => get_at A from (f + sh - 1) | _ => sum_loop A (Z.to_nat sh) from f (ofZ A 0) end)
        as [w| |]; cbn [rbind] in V; try discriminate. injection V as V. cbn [rbind]. rewrite V.
      destruct (put_at_in to t (aggregated A m (slice f sh from)) ltac:(lia)) as (to1 & -> & L1 & R1). cbn [rbind].
      destruct (IH (f + sh) (t + 1) to1) as (to2 & -> & L2 & R2); try lia.
      { intros u Hu. rewrite R1. destruct (Z.eqb_spec u t); [lia|]. apply Z0. lia. }
      exists to2. split; [rewrite G; do 2 f_equal; lia|]. split; [congruence|]. intros u. rewrite R2, R1, G.
      destruct (Z.leb_spec (t + 1) u), (Z.ltb_spec u (t + 1 + groups_from nb sh (f + sh))), (Z.leb_spec t u),
        (Z.ltb_spec u (t + (1 + groups_from nb sh (f + sh)))), (Z.eqb_spec u t); cbn [andb]; try lia; auto.
      * do 3 f_equal. ring.
      * subst u. do 3 f_equal. ring.
    + rewrite groups_stop by lia. exists to. replace (t + 0) with t by lia.
      split; auto. split; auto. intros u. destruct (Z.leb_spec t u), (Z.ltb_spec u t); cbn [andb]; auto; lia.
Qed.

(** One variable. *)
Lemma htol_vector_spec m skip sh nb tnb from : 0 <= skip < sh -> nb = Z.of_nat (length from) -> 0 <= tnb ->
  groups_from nb sh skip <= tnb ->
  exists to, htol_vector A m skip sh nb tnb from = Ok to /\ Z.of_nat (length to) = tnb /\
    forall u, 0 <= u < tnb -> read A to u = Some (if u <? groups_from nb sh skip
                                                 then aggregated A m (slice (skip + u * sh) sh from) else na).
Proof.
  intros Hs En Ht Hg. unfold htol_vector. destruct (Z.ltb_spec tnb 0); [lia|].
  rewrite skip_loop_nothing by lia. cbn [rbind fst snd]. replace (Z.max 0 skip) with skip by lia.
  destruct (htol_loop_spec m sh nb from ltac:(lia) En (Z.to_nat nb) skip 0 (repeat (ofZ A 0) (Z.to_nat tnb))) as (to1 & -> & L1 & R1);
    rewrite ?repeat_length; try lia.
  { intros u Hu. rewrite read_repeat. destruct (Z.leb_spec 0 u), (Z.ltb_spec u (Z.of_nat (Z.to_nat tnb))); cbn [andb]; auto; lia. }
  rewrite repeat_length in L1. cbn [rbind fst snd]. replace (0 + groups_from nb sh skip) with (groups_from nb sh skip) in * by lia.
  assert (0 <= groups_from nb sh skip) by (unfold groups_from; lia).
  destruct (fill_spec (Z.to_nat (tnb - groups_from nb sh skip)) (groups_from nb sh skip) to1) as (to2 & -> & L2 & R2); try lia.
  exists to2. split; auto. split; [lia|]. intros u Hu. rewrite R2, R1, read_repeat.
  destruct (Z.leb_spec (groups_from nb sh skip) u), (Z.ltb_spec u (groups_from nb sh skip + Z.of_nat (Z.to_nat (tnb - groups_from nb sh skip)))),
    (Z.leb_spec 0 u), (Z.ltb_spec u (groups_from nb sh skip)); cbn [andb]; try lia; auto.
  do 3 f_equal. ring.
Qed.
End L.
