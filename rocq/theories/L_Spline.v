(** Lemmas on the loops of the cubic spline (any arithmetic). *)
From Coq Require Import ZArith Ascii String List Bool Lia.
From Verif Require Import M_Base M_Time M_Names M_Lex M_Compile M_Bytes M_Exec M_Kdb M_Vars M_Freq S_Time S_Freq
  L_Time L_Kdb L_Vars L_Vars5 L_Freq L_Freq4.
Import ListNotations.
Open Scope Z_scope.
Local Arguments Z.add : simpl never.
Local Arguments Z.sub : simpl never.
Local Arguments Z.mul : simpl never.

Section L.
Context (A : arith).
Notation F := (F A). Notation na := (na A). Notation num := (num A).
Implicit Types v y from to : list F.

(** The value at a position. *)
Definition at_ v (i : Z) : F := match read A v i with Some x => x | None => na end.
Lemma at_get v i : 0 <= i < Z.of_nat (length v) -> get_at A v i = Ok (at_ v i).
Proof. intros H. unfold at_, get_at. destruct (read_in A v i H) as [x ->]. reflexivity. Qed.
Lemma at_put v i x : 0 <= i < Z.of_nat (length v) -> exists v', put_at A v i x = Ok v' /\ length v' = length v /\
  forall k, at_ v' k = if k =? i then x else at_ v k.
Proof.
  intros H. destruct (put_at_in A v i x H) as (v' & E & L & R). exists v'. split; auto. split; auto.
  intros k. unfold at_. rewrite R. now destruct (k =? i).
Qed.
Lemma at_num v i : 0 <= i < Z.of_nat (length v) -> num (at_ v i) = isnum A v i.
Proof. intros H. unfold at_, isnum. destruct (read_in A v i H) as [x ->]. reflexivity. Qed.
Lemma isnum_at v i : isnum A v i = true -> 0 <= i < Z.of_nat (length v) /\ num (at_ v i) = true.
Proof. intros H. destruct (isnum_in A v i H) as (B & x & R & N). split; auto. unfold at_. now rewrite R. Qed.
Lemma at_read v i : 0 <= i < Z.of_nat (length v) -> read A v i = Some (at_ v i).
Proof. intros H. unfold at_. destruct (read_in A v i H) as [x ->]. reflexivity. Qed.

Definition diff y (i : Z) : F := M_Exec.add A (sub A (at_ y (i + 1)) (mul A (ofZ A 2) (at_ y i))) (at_ y (i - 1)).
Definition pivot (q : F) : F := M_Exec.add A (mul A (one_half A) q) (ofZ A 2).
Definition next_q (q : F) : F := dvd A (sub A (one_half A) (ofZ A 1)) (pivot q).
Definition next_u (d q w : F) : F := dvd A (sub A (mul A (ofZ A 3) d) (mul A (one_half A) w)) (pivot q).

Lemma forward_spec y beg n : 0 <= beg -> beg + n <= Z.of_nat (length y) -> forall fuel i y2 u,
  1 <= i -> n - 1 - i <= Z.of_nat fuel -> n <= Z.of_nat (length y2) -> n <= Z.of_nat (length u) ->
  exists e y2' u', y2_forward A fuel y beg n i y2 u = Ok (e, y2', u') /\ length y2' = length y2 /\ length u' = length u /\
    i <= e /\ (e <= n - 1 \/ e = i) /\ (forall k, i <= k < e -> isnum A y (beg + k) = true) /\ (e < n - 1 -> isnum A y (beg + e) = false) /\
    (forall k, k < i \/ e <= k -> at_ y2' k = at_ y2 k /\ at_ u' k = at_ u k) /\
    (forall k, i <= k < e -> at_ y2' k = next_q (at_ y2' (k - 1)) /\ at_ u' k = next_u (diff y (beg + k)) (at_ y2' (k - 1)) (at_ u' (k - 1))).
Proof.
  intros Hb Hy. induction fuel as [|fuel IH]; intros i y2 u Hi Hf L2 Lu; cbn [y2_forward].
  - destruct (Z.ltb_spec i (n - 1)); [lia|]. exists i, y2, u. repeat split; auto; try lia.
  - destruct (Z.ltb_spec i (n - 1)) as [C|C].
    2:{ exists i, y2, u. repeat split; auto; try lia. }
    rewrite (at_get y (beg + i)) by lia. cbn [rbind]. rewrite at_num by lia. destruct (isnum A y (beg + i)) eqn:N.
    2:{ exists i, y2, u. repeat split; auto; try lia. }
    rewrite (at_get y2 (i - 1)) by lia. cbn [rbind]. cbv zeta.
    destruct (at_put y2 i (dvd A (sub A (one_half A) (ofZ A 1)) (M_Exec.add A (mul A (one_half A) (at_ y2 (i - 1))) (ofZ A 2))) ltac:(lia)) as (y3 & -> & L3 & R3).
    cbn [rbind]. rewrite (at_get y (beg + i + 1)), (at_get y (beg + i - 1)), (at_get u (i - 1)) by lia. cbn [rbind].
    match goal with |- context [put_at A u i ?x] => destruct (at_put u i x ltac:(lia)) as (u3 & -> & Lu3 & Ru3) end. cbn [rbind].
    destruct (IH (i + 1) y3 u3 ltac:(lia) ltac:(lia) ltac:(lia) ltac:(lia)) as (e & y2' & u' & E & L2' & Lu' & Ie & De & Nn & Ns & Fr & Rc).
    exists e, y2', u'. split; auto. split; [congruence|]. split; [congruence|]. split; [lia|]. split; [lia|].
    split. { intros k Hk. destruct (Z.eq_dec k i) as [->|]; auto. apply Nn. lia. }
    split; [exact Ns|]. split.
    + intros k Hk. destruct (Fr k ltac:(lia)) as [-> ->]. rewrite R3, Ru3. destruct (Z.eqb_spec k i); [lia|auto].
    + intros k Hk. destruct (Z.eq_dec k i) as [->|]; [|apply Rc; lia].
      destruct (Fr i ltac:(lia)) as [-> ->]. destruct (Fr (i - 1) ltac:(lia)) as [-> ->]. rewrite !R3, !Ru3, Z.eqb_refl.
      destruct (Z.eqb_spec (i - 1) i); [lia|]. split; reflexivity.
Qed.

Lemma backward_spec (u : list F) : forall n y2, Z.of_nat n < Z.of_nat (length y2) -> Z.of_nat n <= Z.of_nat (length u) ->
  exists y2', y2_backward A n y2 u = Ok y2' /\ length y2' = length y2 /\ (forall k, Z.of_nat n <= k -> at_ y2' k = at_ y2 k) /\
    forall k, 0 <= k < Z.of_nat n -> at_ y2' k = M_Exec.add A (mul A (at_ y2 k) (at_ y2' (k + 1))) (at_ u k).
Proof.
  induction n as [|n IH]; intros y2 L2 Lu; cbn [y2_backward].
  - exists y2. repeat split; auto; lia.
  - rewrite (at_get y2 (Z.of_nat n)), (at_get y2 (Z.of_nat n + 1)), (at_get u (Z.of_nat n)) by lia. cbn [rbind].
    match goal with |- context [put_at A y2 ?i ?x] => destruct (at_put y2 i x ltac:(lia)) as (y3 & -> & L3 & R3) end. cbn [rbind].
    destruct (IH y3 ltac:(lia) ltac:(lia)) as (y2' & -> & L2' & Fr & Rc). exists y2'. split; auto. split; [congruence|]. split.
    + intros k Hk. rewrite Fr, R3 by lia. destruct (Z.eqb_spec k (Z.of_nat n)); [lia|auto].
    + intros k Hk. destruct (Z.eq_dec k (Z.of_nat n)) as [->|].
      * rewrite !Fr, !R3, Z.eqb_refl by lia. destruct (Z.eqb_spec (Z.of_nat n + 1) (Z.of_nat n)); [lia|reflexivity].
      * rewrite Rc by lia. rewrite R3. destruct (Z.eqb_spec k (Z.of_nat n)); [lia|reflexivity].
Qed.

Lemma y2cs_spec y beg n y2 : 0 <= beg -> 1 <= n -> beg + n = Z.of_nat (length y) -> n <= Z.of_nat (length y2) ->
  exists dim y2' (q w : Z -> F), y2cs A y beg n y2 = Ok (dim, y2') /\ length y2' = length y2 /\
    0 <= dim /\ (dim <= n - 2 \/ dim = 0) /\ (forall k, 1 <= k <= dim -> isnum A y (beg + k) = true) /\
    (dim + 1 < n - 1 -> isnum A y (beg + dim + 1) = false) /\
    q 0 = ofZ A 0 /\ w 0 = ofZ A 0 /\
    (forall k, 1 <= k < dim -> q k = next_q (q (k - 1)) /\ w k = next_u (diff y (beg + k)) (q (k - 1)) (w (k - 1))) /\
    at_ y2' dim = ofZ A 0 /\
    (forall k, 0 <= k < dim -> at_ y2' k = M_Exec.add A (mul A (q k) (at_ y2' (k + 1))) (w k)) /\
    (forall k, dim < k -> at_ y2' k = at_ y2 k).
Proof.
  intros Hb Hn Hy L2. unfold y2cs.
  destruct (at_put y2 0 (ofZ A 0) ltac:(lia)) as (y3 & -> & L3 & R3). cbn [rbind].
  destruct (at_put (repeat (ofZ A 0) (Z.to_nat n)) 0 (ofZ A 0)) as (u3 & -> & Lu3 & Ru3); [rewrite repeat_length; lia|]. cbn [rbind].
  rewrite repeat_length in Lu3.
  destruct (forward_spec y beg n Hb ltac:(lia) (Z.to_nat n) 1 y3 u3 ltac:(lia) ltac:(lia) ltac:(lia) ltac:(lia))
    as (e & y4 & u4 & -> & L4 & Lu4 & Ie & De & Nn & Ns & Fr & Rc). cbn [rbind].
  destruct (at_put y4 (e - 1) (ofZ A 0) ltac:(lia)) as (y5 & -> & L5 & R5). cbn [rbind].
  destruct (backward_spec u4 (Z.to_nat (e - 1)) y5 ltac:(lia) ltac:(lia)) as (y6 & -> & L6 & Fr6 & Rc6). cbn [rbind].
  rewrite Z2Nat.id in Fr6, Rc6 by lia.
  assert (Q0 : at_ y4 0 = ofZ A 0). { destruct (Fr 0 ltac:(lia)) as [-> _]. rewrite R3. reflexivity. }
  assert (U0 : at_ u4 0 = ofZ A 0). { destruct (Fr 0 ltac:(lia)) as [_ ->]. rewrite Ru3. reflexivity. }
  exists (e - 1), y6, (at_ y4), (at_ u4). split; auto. split; [congruence|]. split; [lia|]. split; [lia|].
  split. { intros k Hk. apply Nn. lia. }
  split. { intros H. replace (beg + (e - 1) + 1) with (beg + e) by lia. apply Ns. lia. }
  split; auto. split; auto. split. { intros k Hk. apply Rc. lia. }
  split. { rewrite Fr6, R5, Z.eqb_refl by lia. reflexivity. }
  split.
  - intros k Hk. rewrite Rc6 by lia. rewrite R5. destruct (Z.eqb_spec k (e - 1)); [lia|reflexivity].
  - intros k Hk. rewrite Fr6, R5 by lia. destruct (Z.eqb_spec k (e - 1)); [lia|]. destruct (Fr k ltac:(lia)) as [-> _].
    rewrite R3. destruct (Z.eqb_spec k 0); [lia|reflexivity].
Qed.

(** The value in [f + k / sh]. *)
Definition cs_val y y2 (f k sh : Z) : F :=
  let x := M_Exec.add A (dvd A (ofZ A k) (ofZ A sh)) (ofZ A f) in
  let lo := f + k / sh in
  let a := sub A (ofZ A (lo + 1)) x in
  let b := sub A x (ofZ A lo) in
  let cube c := sub A (mul A (mul A c c) c) c in
  M_Exec.add A (M_Exec.add A (mul A a (at_ y lo)) (mul A b (at_ y (lo + 1))))
    (dvd A (M_Exec.add A (mul A (cube a) (at_ y2 lo)) (mul A (cube b) (at_ y2 (lo + 1)))) (ofZ A 6)).
Definition cs_at y y2 (f k sh : Z) : F :=
  if isnum A y (f + k / sh) && isnum A y (f + k / sh + 1) then cs_val y y2 f k sh else na.
Lemma ycs_spec y y2 f k sh : f + k / sh + 1 < Z.of_nat (length y) -> (length y <= length y2)%nat ->
  ycs A y y2 f k sh = Ok (cs_at y y2 f k sh).
Proof.
  intros H L. unfold ycs, cs_at. cbv zeta. destruct (Z.ltb_spec (f + k / sh) 0) as [C|C].
  - assert (N : isnum A y (f + k / sh) = false). { destruct (isnum A y (f + k / sh)) eqn:E; auto. apply isnum_in in E. lia. }
    rewrite N. reflexivity.
  - rewrite (at_get y (f + k / sh)) by lia. cbn [rbind]. rewrite at_num by lia. destruct (isnum A y (f + k / sh)); cbn [andb]; auto.
    rewrite (at_get y (f + k / sh + 1)) by lia. cbn [rbind]. rewrite at_num by lia. destruct (isnum A y (f + k / sh + 1)); auto.
    rewrite (at_get y2 (f + k / sh)), (at_get y2 (f + k / sh + 1)) by lia. reflexivity.
Qed.

(** * One period of a flow *)
Fixpoint run_sum (n : nat) (j : Z) (h : Z -> F) (sum : F) : F :=
  match n with O => sum | S n' => run_sum n' (j + 1) h (if num (h j) && num sum then M_Exec.add A sum (h j) else na) end.
Lemma flow_block_spec val h t : forall n j to sum, (forall i, j <= i < j + Z.of_nat n -> val i = Ok (h i)) ->
  0 <= t + j -> t + j + Z.of_nat n <= Z.of_nat (length to) ->
  exists to', flow_block A n j t val sum to = Ok (to', run_sum n j h sum) /\ length to' = length to /\
    forall u, at_ to' u = if (t + j <=? u) && (u <? t + j + Z.of_nat n) then h (u - t) else at_ to u.
Proof.
  induction n as [|n IH]; intros j to sum Hv H0 H1; cbn [flow_block run_sum].
  - exists to. split; auto. split; auto. intros u. destruct (Z.leb_spec (t + j) u), (Z.ltb_spec u (t + j + Z.of_nat 0)); cbn [andb]; auto; lia.
  - rewrite Hv by lia. cbn [rbind]. destruct (at_put to (t + j) (h j) ltac:(lia)) as (to1 & -> & L1 & R1). cbn [rbind].
    match goal with |- context [flow_block A n (j + 1) t val ?s to1] =>
      destruct (IH (j + 1) to1 s) as (to2 & -> & L2 & R2); [intros; apply Hv; lia|lia|lia|] end.
    exists to2. split; auto. split; [congruence|]. intros u. rewrite R2, R1.
    destruct (Z.leb_spec (t + (j + 1)) u), (Z.ltb_spec u (t + (j + 1) + Z.of_nat n)), (Z.leb_spec (t + j) u),
      (Z.ltb_spec u (t + j + Z.of_nat (S n))), (Z.eqb_spec u (t + j)); cbn [andb]; auto; try lia.
    subst u. f_equal. lia.
Qed.
Lemma add_block_spec d : forall n t to, 0 <= t -> t + Z.of_nat n <= Z.of_nat (length to) ->
  exists to', add_block A n t d to = Ok to' /\ length to' = length to /\
    forall u, at_ to' u = if (t <=? u) && (u <? t + Z.of_nat n) then M_Exec.add A (at_ to u) d else at_ to u.
Proof.
  induction n as [|n IH]; intros t to H0 H1; cbn [add_block].
  - exists to. split; auto. split; auto. intros u. destruct (Z.leb_spec t u), (Z.ltb_spec u (t + Z.of_nat 0)); cbn [andb]; auto; lia.
  - rewrite (at_get to t) by lia. cbn [rbind].
    destruct (at_put to t (M_Exec.add A (at_ to t) d) ltac:(lia)) as (to1 & -> & L1 & R1). cbn [rbind].
    destruct (IH (t + 1) to1) as (to2 & -> & L2 & R2); [lia|lia|]. exists to2. split; auto. split; [congruence|]. intros u. rewrite R2, R1.
    destruct (Z.leb_spec (t + 1) u), (Z.ltb_spec u (t + 1 + Z.of_nat n)), (Z.leb_spec t u),
      (Z.ltb_spec u (t + Z.of_nat (S n))), (Z.eqb_spec u t); cbn [andb]; auto; try lia. now subst u.
Qed.
(** The values of a period, corrected when their sum is known. *)
Definition corrected (x : F) (sh : Z) (h : Z -> F) (j : Z) : F :=
  let s := run_sum (Z.to_nat sh) 0 h (ofZ A 0) in
  if num s then M_Exec.add A (h j) (dvd A (sub A (mul A x (ofZ A sh)) s) (ofZ A sh)) else h j.
Lemma flow_blocks_spec from y2 sh : 0 < sh -> (length from <= length y2)%nat -> forall n f t to,
  0 <= f -> f + Z.of_nat n < Z.of_nat (length from) -> 0 <= t -> t + Z.of_nat n * sh <= Z.of_nat (length to) ->
  exists to', flow_blocks A n from y2 f t sh to = Ok to' /\ length to' = length to /\
    forall u, at_ to' u = if (t <=? u) && (u <? t + Z.of_nat n * sh)
       then let f' := f + (u - t) / sh in corrected (at_ from f') sh (fun j => cs_at from y2 f' (j - 1) sh) ((u - t) mod sh) else at_ to u.
Proof.
  intros Hs L2. induction n as [|n IH]; intros f t to H0 Hf Ht Hl; cbn [flow_blocks].
  - exists to. split; auto. split; auto. intros u. destruct (Z.leb_spec t u), (Z.ltb_spec u (t + Z.of_nat 0 * sh)); cbn [andb]; auto; lia.
  - destruct (flow_block_spec (fun j => ycs A from y2 f (j - 1) sh) (fun j => cs_at from y2 f (j - 1) sh) t (Z.to_nat sh) 0 to (ofZ A 0))
      as (to1 & -> & L1 & R1); [|lia|nia|].
    { intros i Hi. apply ycs_spec; auto. assert ((i - 1) / sh <= 0) by (apply Z.lt_succ_r, Z.div_lt_upper_bound; lia). lia. }
    cbn [rbind]. rewrite Z2Nat.id in R1 by lia. replace (t + 0) with t in R1 by lia.
    set (h := fun j => cs_at from y2 f (j - 1) sh) in *. set (s := run_sum (Z.to_nat sh) 0 h (ofZ A 0)) in *.
    assert (E : exists to2, (if num s then do x <- get_at A from f; add_block A (Z.to_nat sh) t (dvd A (sub A (mul A x (ofZ A sh)) s) (ofZ A sh)) to1 else Ok to1) = Ok to2
      /\ length to2 = length to /\ forall u, at_ to2 u = if (t <=? u) && (u <? t + sh) then corrected (at_ from f) sh h (u - t) else at_ to u).
    { unfold corrected. fold s. cbv zeta. destruct (num s).
      - rewrite at_get by lia. cbn [rbind].
        destruct (add_block_spec (dvd A (sub A (mul A (at_ from f) (ofZ A sh)) s) (ofZ A sh)) (Z.to_nat sh) t to1 ltac:(lia) ltac:(nia)) as (to2 & -> & L3 & R3).
        exists to2. split; auto. split; [congruence|]. intros u. rewrite R3, R1, Z2Nat.id by lia.
        now destruct ((t <=? u) && (u <? t + sh)).
      - exists to1. split; auto. }
    destruct E as (to2 & -> & L3 & R3). cbn [rbind].
    destruct (IH (f + 1) (t + sh) to2) as (to3 & -> & L4 & R4); [lia|lia|lia|nia|]. exists to3. split; auto. split; [congruence|].
    intros u. rewrite R4, R3. cbv zeta.
    replace (t + Z.of_nat (S n) * sh) with (t + sh + Z.of_nat n * sh) by lia.
    destruct (Z.leb_spec (t + sh) u), (Z.ltb_spec u (t + sh + Z.of_nat n * sh)), (Z.leb_spec t u), (Z.ltb_spec u (t + sh)); cbn [andb]; auto; try lia; try nia.
    + replace (u - t) with (u - (t + sh) + 1 * sh) by lia. rewrite Z.div_add, Z.mod_add by lia.
      replace (f + 1 + (u - (t + sh)) / sh) with (f + ((u - (t + sh)) / sh + 1)) by lia. reflexivity.
    + rewrite Z.div_small, Z.mod_small by lia. unfold h. now replace (f + 0) with f by lia.
Qed.
Lemma divide_run_spec sh nb : forall n from f, nb = Z.of_nat (length from) -> 0 <= f -> nb - f <= Z.of_nat n ->
  exists from' e, divide_run A n from f nb sh = Ok from' /\ length from' = length from /\ (f <= e /\ (e <= nb \/ e = f)) /\
    (forall k, f <= k < e -> isnum A from k = true) /\ (e < nb -> isnum A from e = false) /\
    forall k, at_ from' k = if (f <=? k) && (k <? e) then dvd A (at_ from k) (ofZ A sh) else at_ from k.
Proof.
  induction n as [|n IH]; intros from f En H0 Hn; cbn [divide_run].
  - exists from, f. repeat split; auto; try lia. intros k. destruct (Z.leb_spec f k), (Z.ltb_spec k f); cbn [andb]; auto; lia.
  - destruct (Z.ltb_spec f nb) as [C|C].
    2:{ exists from, f. repeat split; auto; try lia. intros k. destruct (Z.leb_spec f k), (Z.ltb_spec k f); cbn [andb]; auto; lia. }
    rewrite at_get by lia. cbn [rbind]. rewrite at_num by lia. destruct (isnum A from f) eqn:N.
    2:{ exists from, f. repeat split; auto; try lia. intros k. destruct (Z.leb_spec f k), (Z.ltb_spec k f); cbn [andb]; auto; lia. }
    destruct (at_put from f (dvd A (at_ from f) (ofZ A sh)) ltac:(lia)) as (from1 & -> & L1 & R1). cbn [rbind].
    destruct (IH from1 (f + 1) ltac:(lia) ltac:(lia) ltac:(lia)) as (from2 & e & E2 & L2 & De & N2 & S2 & R2).
    assert (I : forall k, k <> f -> isnum A from1 k = isnum A from k).
    { intros k Hk. destruct (Z.leb_spec 0 k), (Z.ltb_spec k (Z.of_nat (length from))).
      - rewrite <- !at_num by lia. rewrite R1. destruct (Z.eqb_spec k f); [lia|auto].
      - unfold isnum. rewrite !read_out by lia. auto.
      - unfold isnum. rewrite !read_out by lia. auto.
      - unfold isnum. rewrite !read_out by lia. auto. }
    exists from2, e. split; auto. split; [congruence|]. split; [lia|]. split; [|split].
    + intros k Hk. destruct (Z.eq_dec k f) as [->|]; auto. rewrite <- I by lia. apply N2. lia.
    + intros He. rewrite <- I by lia. auto.
    + intros k. rewrite R2, R1. destruct (Z.leb_spec (f + 1) k), (Z.ltb_spec k e), (Z.leb_spec f k), (Z.eqb_spec k f); cbn [andb]; auto; try lia. now subst k.
Qed.

(** * A stock *)
Lemma stock_blocks from y2 sh dim beg to : 0 < sh -> (length from <= length y2)%nat -> 0 <= beg -> 0 <= dim ->
  (0 < dim -> beg + dim + 1 < Z.of_nat (length from)) -> Z.of_nat (length from) * sh <= Z.of_nat (length to) ->
  exists to', write_blocks A (Z.to_nat dim) beg ((beg + 1) * sh) sh (fun f j => ycs A from y2 f (j + 1) sh) to = Ok to' /\ length to' = length to /\
    forall u, at_ to' u = if ((beg + 1) * sh <=? u) && (u <? (beg + 1 + dim) * sh)
                          then cs_at from y2 (u / sh - 1) (u mod sh + 1) sh else at_ to u.
Proof.
  intros Hs L2 Hb Hd Hl Ht. destruct (Z.eq_dec dim 0) as [->|Nz].
  { exists to. split; auto. split; auto. intros u. destruct (Z.leb_spec ((beg + 1) * sh) u), (Z.ltb_spec u ((beg + 1 + 0) * sh)); cbn [andb]; auto; nia. }
  specialize (Hl ltac:(lia)).
  destruct (write_blocks_spec A sh (fun f j => ycs A from y2 f (j + 1) sh) (fun f j => cs_at from y2 f (j + 1) sh) Hs (Z.to_nat dim) beg ((beg + 1) * sh) to)
    as (to' & E & L & R).
  - intros f j Hf Hj. apply ycs_spec; auto. assert ((j + 1) / sh <= 1) by (apply Z.lt_succ_r, Z.div_lt_upper_bound; lia). lia.
  - nia.
  - rewrite Z2Nat.id by lia. nia.
  - exists to'. split; auto. split; auto. intros u. unfold at_ at 1. rewrite R, Z2Nat.id by lia.
    replace ((beg + 1) * sh + dim * sh) with ((beg + 1 + dim) * sh) by ring.
    destruct ((((beg + 1) * sh <=? u) && (u <? (beg + 1 + dim) * sh))) eqn:C; [|reflexivity].
    replace (u - (beg + 1) * sh) with (u + (- (beg + 1)) * sh) by ring. rewrite Z.div_add, Z.mod_add by lia. f_equal. lia.
Qed.
(** The loop over the runs of a stock: what is before is kept. *)
Lemma stock_runs from nb sh : 0 < sh -> nb = Z.of_nat (length from) -> forall fuel beg y2 to, 0 <= beg -> (length from <= length y2)%nat ->
  nb - beg < Z.of_nat fuel /\ 0 < Z.of_nat fuel -> nb * sh <= Z.of_nat (length to) ->
  exists to', cs_runs A fuel LTOH_STOCK from y2 nb sh beg to = Ok to' /\ length to' = length to /\ forall u, u < (beg + 1) * sh -> at_ to' u = at_ to u.
Proof.
  intros Hs En. induction fuel as [|fuel IH]; intros beg y2 to H0 L2 Hk Hl; cbn [cs_runs]; [lia|].
  assert (Ab : exists b, advance A (Z.to_nat nb) false from beg nb = Ok b /\ beg <= b /\ (b < nb -> 0 <= b < nb)).
  { destruct (Z.leb_spec beg nb) as [Hb|Hb].
    - destruct (advance_spec A from nb false En (Z.to_nat nb) beg ltac:(lia) ltac:(lia)) as (b & -> & Bb & _). exists b. repeat split; auto; lia.
    - exists beg. split; [|lia]. destruct (Z.to_nat nb); cbn [advance]; auto. destruct (Z.ltb_spec beg nb); [lia|auto]. }
  destruct Ab as (b & -> & Bb & Ib). cbn [rbind]. destruct (Z.leb_spec nb b) as [Hnb|Hnb].
  { exists to. split; auto. }
  destruct (y2cs_spec from b (nb - b) y2) as (dim & y2' & q & w & -> & L2' & Hd & Dd & _); [lia|lia|lia|lia|]. cbn [rbind].
  destruct (stock_blocks from y2' sh dim b to Hs ltac:(lia) ltac:(lia) Hd ltac:(lia) ltac:(lia)) as (to1 & -> & L1 & R1). cbn [rbind].
  destruct (IH (b + (dim + 1)) y2' to1) as (to2 & -> & L3 & R3); [lia|lia|lia|lia|]. exists to2. split; auto. split; [congruence|].
  intros u Hu. rewrite R3, R1 by nia. destruct (Z.leb_spec ((b + 1) * sh) u); [nia|reflexivity].
Qed.
Lemma num_repeat i n : isnum A (repeat na n) i = false.
Proof. unfold isnum. rewrite read_repeat. destruct ((0 <=? i) && (i <? Z.of_nat n)); auto. apply num_na. Qed.

(** The first run of a stock. *)
Lemma stock_vector sh nb tnb from N : 0 < sh -> nb = Z.of_nat (length from) -> nb * sh <= tnb -> 0 <= N -> N + 1 < nb ->
  (forall i, 0 <= i <= N -> isnum A from i = true) -> (N + 1 < nb - 1 -> isnum A from (N + 1) = false) ->
  exists to y2 (q w : Z -> F), ltoh_vector A LTOH_CS LTOH_STOCK sh nb tnb from = Ok to /\ Z.of_nat (length to) = tnb /\
    q 0 = ofZ A 0 /\ w 0 = ofZ A 0 /\
    (forall k, 1 <= k < N -> q k = next_q (q (k - 1)) /\ w k = next_u (diff from k) (q (k - 1)) (w (k - 1))) /\
    at_ y2 N = ofZ A 0 /\ (forall k, 0 <= k < N -> at_ y2 k = M_Exec.add A (mul A (q k) (at_ y2 (k + 1))) (w k)) /\
    forall u, 0 <= u < (N + 1) * sh -> at_ to u = if sh <=? u then cs_at from y2 (u / sh - 1) (u mod sh + 1) sh else na.
Proof.
  intros Hs En Ht HN HN1 Nn Ns. unfold ltoh_vector. destruct (Z.ltb_spec tnb 0); [nia|].
  set (to0 := repeat na (Z.to_nat tnb)). assert (L0 : Z.of_nat (length to0) = tnb) by (unfold to0; rewrite repeat_length; lia).
  cbn [cs_runs].
  assert (Ea : advance A (Z.to_nat nb) false from 0 nb = Ok 0).
  { destruct (Z.to_nat nb) eqn:Z0; [lia|]. cbn [advance]. destruct (Z.ltb_spec 0 nb); [|lia]. rewrite at_get by lia. cbn [rbind].
    rewrite at_num by lia. rewrite Nn by lia. reflexivity. }
  rewrite Ea. cbn [rbind]. destruct (Z.leb_spec nb 0); [lia|].
  destruct (y2cs_spec from 0 (nb - 0) (repeat (ofZ A 0) (Z.to_nat nb))) as (dim & y2' & q & w & -> & L2' & Hd & Dd & Dn & Ds & Q0 & W0 & Rc & Yd & Yr & _);
    rewrite ?repeat_length in *; try lia. cbn [rbind].
  assert (Ed : dim = N).
  { destruct (Z.lt_trichotomy dim N) as [C|[C|C]]; auto; exfalso.
    - assert (dim + 1 < nb - 0 - 1) by lia. specialize (Ds H1). replace (0 + dim + 1) with (dim + 1) in Ds by lia. rewrite Nn in Ds by lia. discriminate.
    - assert (N + 1 < nb - 1) by lia. specialize (Ns H1). specialize (Dn (N + 1) ltac:(lia)). replace (0 + (N + 1)) with (N + 1) in Dn by lia. congruence. }
  subst dim.
  destruct (stock_blocks from y2' sh N 0 to0 Hs ltac:(lia) ltac:(lia) Hd ltac:(lia) ltac:(lia)) as (to1 & -> & L1 & R1). cbn [rbind].
  destruct (stock_runs from nb sh Hs En (Z.to_nat nb) (0 + (N + 1)) y2' to1) as (to2 & E2 & L3 & R3); [lia|lia|lia|lia|].
  exists to2, y2', q, w. split; [exact E2|]. split; [lia|]. split; auto. split; auto.
  split. { intros k Hk. specialize (Rc k Hk). replace (0 + k) with k in Rc by lia. exact Rc. }
  split; auto. split; auto. intros u Hu. rewrite R3, R1 by nia. replace ((0 + 1) * sh) with sh by ring. replace ((0 + 1 + N) * sh) with ((N + 1) * sh) by ring.
  destruct (Z.leb_spec sh u), (Z.ltb_spec u ((N + 1) * sh)); cbn [andb]; auto; try lia.
  unfold at_, to0. rewrite read_repeat. now destruct ((0 <=? u) && (u <? Z.of_nat (Z.to_nat tnb))).
Qed.
(** The conversion of a stock never fails. *)
Lemma stock_total sh nb tnb from : 0 < sh -> nb = Z.of_nat (length from) -> nb * sh <= tnb ->
  exists to, ltoh_vector A LTOH_CS LTOH_STOCK sh nb tnb from = Ok to /\ Z.of_nat (length to) = tnb.
Proof.
  intros Hs En Ht. unfold ltoh_vector. destruct (Z.ltb_spec tnb 0); [nia|].
  destruct (stock_runs from nb sh Hs En (S (Z.to_nat nb)) 0 (repeat (ofZ A 0) (Z.to_nat nb)) (repeat na (Z.to_nat tnb))) as (to & E & L & _);
    rewrite ?repeat_length in *; try lia. exists to. split; auto. lia.
Qed.
End L.
