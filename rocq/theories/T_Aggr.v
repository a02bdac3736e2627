(** C44: the aggregation of variables. *)
From Coq Require Import ZArith Ascii String List Bool Lia QArith Qcanon.
From Verif Require Import M_Base M_Names M_Lex S_Names L_Names M_Exec M_Exact M_Double M_Kdb M_Aggr S_Aggr L_Aggr L_Aggr2.
Import ListNotations.
Open Scope Z_scope.

(** The results are exactly the groups of the variables. *)
Theorem C44_groups : forall A method c p, no_open_end p -> forall nb l ndb, aggregate A method c p nb l = Ok ndb ->
  forall k, (exists vals, find k ndb = Some vals) <-> (exists n v, In (n, v) l /\ belongs c p n k).
Proof. exact groups. Qed.
Print Assumptions C44_groups.

(** Sums and products: in each group and at each period without missing value, the sum or the product of exactly
    the members, in the order of their names. In any arithmetic. *)
Theorem C44_sum_and_product : forall A method c p, no_open_end p -> forall nb l ndb k vals ms,
  method <> 2 -> aggregate A method c p (Z.of_nat nb) l = Ok ndb ->
  (forall n v, In (n, v) l -> length v = nb) -> find k ndb = Some vals -> members c p k l ms ->
  length vals = nb /\ forall i, (i < nb)%nat -> (forall m, In m ms -> num A (nth i m (na A)) = true) ->
    nth i vals (na A) = total (if method =? 1 then mul A else M_Exec.add A) (map (fun m => nth i m (na A)) ms) (na A).
Proof. exact values. Qed.
Print Assumptions C44_sum_and_product.

(** The sum of a group with a missing value is missing, when the other values are absorbed by the missing value
    (in double precision, all values up to 10^20). *)
Theorem C44_sum_of_missing : forall A method c p, no_open_end p -> forall nb l ndb k vals ms,
  method <> 1 -> method <> 2 -> aggregate A method c p (Z.of_nat nb) l = Ok ndb ->
  (forall n v, In (n, v) l -> length v = nb) -> find k ndb = Some vals -> members c p k l ms ->
  forall i, (i < nb)%nat ->
    (forall m, In m ms -> nth i m (na A) = na A \/
       num A (nth i m (na A)) = true /\ M_Exec.add A (na A) (nth i m (na A)) = na A) ->
    (exists m, In m ms /\ nth i m (na A) = na A) ->
    nth i vals (na A) = na A.
Proof. exact sum_missing. Qed.
Print Assumptions C44_sum_of_missing.

(** Means: all the groups are divided by the same number; it is the size of the group when there is only one.
    Missing for the full property: two groups of different sizes, which is false (see below). *)
Theorem C44_mean_partial : forall A method c p, no_open_end p -> forall nb l ndb,
  method = 2 -> aggregate A method c p (Z.of_nat nb) l = Ok ndb ->
  (forall n v, In (n, v) l -> length v = nb) ->
  exists d,
    (forall k vals ms, find k ndb = Some vals -> members c p k l ms ->
       length vals = nb /\ forall i, (i < nb)%nat -> (forall m, In m ms -> num A (nth i m (na A)) = true) ->
         let s := total (M_Exec.add A) (map (fun m => nth i m (na A)) ms) (na A) in
         nth i vals (na A) = if num A s then dvd A s (ofZ A d) else s) /\
    (forall k ms, (forall n v k', In (n, v) l -> belongs c p n k' -> k' = k) -> members c p k l ms -> ms <> [] ->
       d = Z.of_nat (length ms)).
Proof. exact mean_divisor. Qed.
Print Assumptions C44_mean_partial.

(** Up to 500 variables, when the names of the groups are names of variables, there is a result. *)
Theorem C44_defined : forall A method c p, no_open_end p -> forall nb l, nb <> 0 -> (length l <= 500)%nat ->
  (forall n v k, In (n, v) l -> belongs c p n k -> accepted VARIABLES k) ->
  exists ndb, aggregate A method c p nb l = Ok ndb.
Proof. exact defined. Qed.
Print Assumptions C44_defined.

(** Any number of variables, when the groups are met in the order of their names. *)
Theorem C44_defined_in_order : forall A method c p, no_open_end p -> forall nb l, nb <> 0 ->
  (forall n v k, In (n, v) l -> belongs c p n k -> accepted VARIABLES k) ->
  (forall a n v b n' v' k k', l = a ++ (n, v) :: b -> In (n', v') b -> belongs c p n k -> belongs c p n' k' ->
     str_ltb k' k = false) ->
  exists ndb, aggregate A method c p nb l = Ok ndb.
Proof. exact defined_ordered. Qed.
Print Assumptions C44_defined_in_order.

(** A case: three variables in two groups, two periods. *)
Definition three : smap (list Qc) :=
  [(S2L "A1", [q_ofZ 2; q_ofZ 1]); (S2L "A2", [q_ofZ 4; q_ofZ 5]); (S2L "B1", [q_ofZ 9; q_ofZ 7])].
Definition pat : str := S2L "(?)[?]".
Lemma pat_open : no_open_end pat.
Proof. apply closedb_ok. reflexivity. Qed.
(** The result in fractions. *)
Definition shown (r : res (smap (list Qc))) : res (smap (list Q)) :=
  match r with Ok m => Ok (map (fun kv => (fst kv, map this (snd kv))) m) | Throw => Throw | UB => UB end.
Example three_sum : shown (aggregate exactly 0 "_" pat 2 three) =
  Ok [(S2L "A_", [6%Q; 6%Q]); (S2L "B_", [9%Q; 7%Q])].
Proof. vm_compute. reflexivity. Qed.
Example three_product : shown (aggregate exactly 1 "_" pat 2 three) =
  Ok [(S2L "A_", [8%Q; 5%Q]); (S2L "B_", [9%Q; 7%Q])].
Proof. vm_compute. reflexivity. Qed.
Lemma three_groups n r : renamed "_" (items false pat) n r -> exists x y, n = [x; y] /\ r = [x; "_"%char].
Proof.
  cbn. intros H. inversion H; subst. match goal with H : renamed _ [_] _ _ |- _ => inversion H; subst end.
  match goal with H : renamed _ [] _ _ |- _ => inversion H; subst end. eauto.
Qed.
Example three_members : members "_" pat (S2L "A_") three [[q_ofZ 2; q_ofZ 1]; [q_ofZ 4; q_ofZ 5]].
Proof. apply group_members; [exact pat_open|]. reflexivity. Qed.
(** The hypotheses of the mean: without B1, a single group. *)
Example two_mean : shown (aggregate exactly 2 "_" pat 2 (firstn 2 three)) = Ok [(S2L "A_", [3%Q; 3%Q])].
Proof. vm_compute. reflexivity. Qed.
Example two_single : forall n v k, In (n, v) (firstn 2 three) -> belongs "_" pat n k -> k = S2L "A_".
Proof.
  intros n v k HI HB. apply belongs_iff in HB; [|exact pat_open]. destruct HB as (m & Hm & ->).
  destruct HI as [HI|[HI|[]]]; injection HI as <- <-; cbn in Hm; injection Hm as <-; reflexivity.
Qed.
Example three_accepted : forall n v k, In (n, v) three -> belongs "_" pat n k -> accepted VARIABLES k.
Proof.
  intros n v k HI HB. apply check_name_iff. apply belongs_iff in HB; [|exact pat_open]. destruct HB as (m & Hm & ->).
  destruct HI as [HI|[HI|[HI|[]]]]; injection HI as <- <-; cbn in Hm; injection Hm as <-; reflexivity.
Qed.
(** In double precision the missing value absorbs 10^20. *)
Example absorbed : M_Exec.add double d_na (d_ofZ 100000000000000000000) = d_na.
Proof. vm_compute. reflexivity. Qed.

(** The mean of (2, 4) beside the group of 9 is given as 6: all the sums are divided by the size of the group of the
    last variable. *)
Theorem C44_mean_refuted :
  shown (aggregate exactly 2 "_" pat 2 three) = Ok [(S2L "A_", [6%Q; 6%Q]); (S2L "B_", [9%Q; 7%Q])] /\
  members "_" pat (S2L "A_") three [[q_ofZ 2; q_ofZ 1]; [q_ofZ 4; q_ofZ 5]] /\
  ((q_ofZ 2 + q_ofZ 4) / q_ofZ 2 = q_ofZ 3)%Qc.
Proof. split; [vm_compute; reflexivity|]. split; [exact three_members|]. apply Qc_is_canon. vm_compute. reflexivity. Qed.
Print Assumptions C44_mean_refuted.

(** The product of a missing value and 0 is given as 0 and that of a missing value and -1 as 2e37, both numbers. *)
Theorem C44_product_of_missing_refuted :
  let l := [(S2L "A1", [na double; na double]); (S2L "A2", [d_ofZ 0; d_ofZ (-1)])] in
  exists vals, aggregate double 1 "_" pat 2 l = Ok [(S2L "A_", vals)] /\
    Forall (fun v => num double v = true) vals.
Proof. eexists. split; [vm_compute; reflexivity|]. repeat constructor. Qed.
Print Assumptions C44_product_of_missing_refuted.

(** A workspace without periods: an indeterminate pointer is freed. *)
Theorem C44_no_period_refuted : forall A method c p l, aggregate A method c p 0 l = UB.
Proof. reflexivity. Qed.
Print Assumptions C44_no_period_refuted.

(** More than 500 groups, not met in the order of their names: a counter beyond the end is written. *)
Definition digit (n : nat) : ascii := ascii_of_nat (48 + n).
Definition number (n : nat) : str := [digit (n / 100); digit (n / 10 mod 10); digit (n mod 10)].
Definition many : smap (list Qc) :=
  map (fun i => (S2L "AM" ++ number i, [q_ofZ 1])) (seq 0 500) ++
  [(S2L "BA000", [q_ofZ 1]); (S2L "CM499", [q_ofZ 1])].
Theorem C44_many_groups_refuted : aggregate exactly 0 " " (S2L "[?]????") 1 many = UB /\
  forall n v, In (n, v) many -> accepted VARIABLES n.
Proof.
  split; [vm_compute; reflexivity|]. intros n v H.
  assert (E : forallb (fun nv => match check_name (fst nv) VARIABLES with Ok _ => true | _ => false end) many = true)
    by (vm_compute; reflexivity).
  rewrite forallb_forall in E. apply E in H. cbn [fst] in H. apply check_name_iff.
  destruct (check_name n VARIABLES) as [[]| |]; congruence.
Qed.
Print Assumptions C44_many_groups_refuted.

(** A pattern ending with an opening bracket followed by no item refuses the names that it describes. *)
Theorem C44_open_end_refuted : belongs "_" (S2L "AB()") (S2L "AB") (S2L "AB") /\
  aggregate exactly 0 "_" (S2L "AB()") 1 [(S2L "AB", [q_ofZ 1])] = Ok [].
Proof.
  split; [|vm_compute; reflexivity]. exists (S2L "AB"), (S2L "AB"). split; [cbn; repeat constructor|]. split; [|reflexivity].
  exists (S2L "AB"), []. repeat split; auto. repeat constructor; discriminate.
Qed.
Print Assumptions C44_open_end_refuted.
