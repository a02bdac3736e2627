(** C94: the comparison of a workspace with a file puts every name in the right list. *)
From Coq Require Import ZArith Ascii String List Bool Lia ZifyBool Sorting.Sorted Reals Lra QArith Qcanon.
From Verif Require Import M_Base M_Time M_Names M_Lex M_Kdb S_Names L_Names L_Kdb M_Report S_Report L_Report5 M_Exec M_Real M_Exact M_Lists S_Lists L_Lists L_Lists2 M_Compare S_Compare L_Compare.
Import ListNotations.
Open Scope Z_scope.

(** The four tables: every name of the workspace or of the file is in exactly one of them, in the order of the names. *)
Theorem C94_compare : forall T ty (same : T -> T -> res bool) K1 K2, database ty K1 -> database ty K2 -> one_case ty K1 K2 ->
  (forall n a b, M_Kdb.find n K1 = Some a -> M_Kdb.find n K2 = Some b -> exists r, same a b = Ok r) ->
  exists l1 l2 l3 l4, compare ty same K1 K2 = Ok (l1, l2, l3, l4) /\
  exactly_those (fun n => In n (keys K1) /\ ~ In n (keys K2)) l1 /\
  exactly_those (fun n => ~ In n (keys K1) /\ In n (keys K2)) l2 /\
  exactly_those (fun n => exists a b, M_Kdb.find n K1 = Some a /\ M_Kdb.find n K2 = Some b /\ same a b = Ok true) l3 /\
  exactly_those (fun n => exists a b, M_Kdb.find n K1 = Some a /\ M_Kdb.find n K2 = Some b /\ same a b = Ok false) l4.
Proof. intros T ty same K1 K2. exact (compare_is ty same K1 K2). Qed.

Lemma accepted_element ty n : accepted ty n -> element n = true.
Proof.
  intros (c & r & -> & L & Hc & Hr).
  assert (A : forall x, In x (c :: r) -> letter_of ty x \/ 48 <= code x <= 57 \/ code x = 95 \/ code x = 35) by (intros x [<-|Hx]; [tauto|rewrite Forall_forall in Hr; apply Hr, Hx]).
  assert (B : forall x, In x (c :: r) -> sep x = false /\ among x [34] = false).
  { intros x Hx. apply A in Hx. unfold sep, among. cbn [existsb]. destruct ty; cbn in Hx; lia. }
  unfold element, word. rewrite !andb_true_iff. repeat split.
  - apply forallb_forall. intros x Hx. apply negb_true_iff, B, Hx.
  - unfold without. apply forallb_forall. intros x Hx. apply negb_true_iff, B, Hx.
  - apply Nat.leb_le. lia.
  - cbn [first_not]. unfold among. cbn [existsb]. destruct ty; cbn in Hc; lia.
Qed.
Lemma those_elements ty P l : exactly_those P l -> (forall n, P n -> accepted ty n) -> forallb element l = true.
Proof. intros [_ H] A. apply forallb_forall. intros n Hn. apply (accepted_element ty), A, H, Hn. Qed.

(** The command stores them in its four lists; the other lists do not change. *)
Theorem C94_lists : forall T ty (same : T -> T -> res bool) K1 K2 ws one two three four, database ty K1 -> database ty K2 -> one_case ty K1 K2 -> K2 <> [] ->
  (forall n a b, M_Kdb.find n K1 = Some a -> M_Kdb.find n K2 = Some b -> exists r, same a b = Ok r) ->
  Z.of_nat (length K1) + Z.of_nat (length K2) < 10000 ->
  list_name one -> list_name two -> list_name three -> list_name four ->
  ~ same_name one two -> ~ same_name one three -> ~ same_name one four -> ~ same_name two three -> ~ same_name two four -> ~ same_name three four ->
  exists ws' l1 l2 l3 l4, DataCompare ty same ws K1 K2 one two three four = Ok (true, ws') /\
    list_holds ws' one l1 /\ list_holds ws' two l2 /\ list_holds ws' three l3 /\ list_holds ws' four l4 /\
    exactly_those (fun n => In n (keys K1) /\ ~ In n (keys K2)) l1 /\
    exactly_those (fun n => ~ In n (keys K1) /\ In n (keys K2)) l2 /\
    exactly_those (fun n => exists a b, M_Kdb.find n K1 = Some a /\ M_Kdb.find n K2 = Some b /\ same a b = Ok true) l3 /\
    exactly_those (fun n => exists a b, M_Kdb.find n K1 = Some a /\ M_Kdb.find n K2 = Some b /\ same a b = Ok false) l4 /\
    (forall other, ~ same_name other one -> ~ same_name other two -> ~ same_name other three -> ~ same_name other four -> list_of ws' other = list_of ws other).
Proof.
  intros T ty same K1 K2 ws one two three four D1 D2 OC NE Tot Lg N1 N2 N3 N4 n12 n13 n14 n23 n24 n34.
  destruct (compare_is ty same K1 K2 D1 D2 OC Tot) as (l1 & l2 & l3 & l4 & E & H1 & H2 & H3 & H4).
  assert (Acc1 : forall n, In n (keys K1) -> accepted ty n) by (intros n; apply D1). assert (Acc2 : forall n, In n (keys K2) -> accepted ty n) by (intros n; apply D2).
  assert (F1 : forall n v, M_Kdb.find n K1 = Some v -> In n (keys K1)) by (intros n v F; apply find_In in F; apply (in_map fst) in F; exact F).
  assert (E1 : forallb element l1 = true) by (apply (those_elements ty _ _ H1); intros n [A _]; apply Acc1, A).
  assert (E2 : forallb element l2 = true) by (apply (those_elements ty _ _ H2); intros n [_ A]; apply Acc2, A).
  assert (E3 : forallb element l3 = true) by (apply (those_elements ty _ _ H3); intros n (a & b & A & _); apply Acc1, (F1 n a), A).
  assert (E4 : forallb element l4 = true) by (apply (those_elements ty _ _ H4); intros n (a & b & A & _); apply Acc1, (F1 n a), A).
  assert (Len : forall P l, exactly_those P l -> (forall n, P n -> In n (keys K1) \/ In n (keys K2)) -> Z.of_nat (length l) < 10000).
  { intros P l [S I] Hp. assert (L : (length l <= length (keys K1 ++ keys K2))%nat).
    - apply NoDup_incl_length.
      + clear - S. induction S as [|x l S IH F]; [constructor|]. constructor; [|exact IH]. intros Hx. rewrite Forall_forall in F. exact (str_lt_irrefl x (F x Hx)).
      + intros n Hn. apply in_or_app, Hp, I, Hn.
    - rewrite app_length in L. unfold keys in L. rewrite !map_length in L. lia. }
  assert (L1 : Z.of_nat (length l1) < 10000) by (apply (Len _ _ H1); tauto). assert (L2 : Z.of_nat (length l2) < 10000) by (apply (Len _ _ H2); tauto).
  assert (L3 : Z.of_nat (length l3) < 10000) by (apply (Len _ _ H3); intros n (a & b & A & _); left; exact (F1 n a A)).
  assert (L4 : Z.of_nat (length l4) < 10000) by (apply (Len _ _ H4); intros n (a & b & A & _); left; exact (F1 n a A)).
  assert (K : forall a b, list_name a -> list_name b -> ~ same_name a b -> to_upper a <> to_upper b).
  { intros a b A B D X. apply D. unfold same_name. rewrite !list_name_key by assumption. exact X. }
  unfold DataCompare. destruct K2 as [|x K2']; [congruence|]. rewrite E. unfold store4.
  rewrite KL_lst_whole by (try exact N1; lia). rewrite KL_lst_whole by (try exact N2; lia). rewrite KL_lst_whole by (try exact N3; lia). rewrite KL_lst_whole by (try exact N4; lia).
  eexists. exists l1, l2, l3, l4. split; [reflexivity|]. set (ws' := M_Kdb.put _ _ _).
  assert (Hold : forall nm l, list_name nm -> forallb element l = true -> M_Kdb.find (to_upper nm) ws' = Some (mtov l [chr 59]) -> list_holds ws' nm l).
  { intros nm l N El F. pose proof (mtov_items l El) as [I Q]. exists (mtov l [chr 59]). rewrite list_of_name by exact N. repeat split; [exact F|exact Q|rewrite I; apply flat_elements, El]. }
  split; [apply Hold; [exact N1|exact E1|]; unfold ws'; rewrite !find_put_neq by (apply K; assumption); apply find_put_eq|].
  split; [apply Hold; [exact N2|exact E2|]; unfold ws'; rewrite !find_put_neq by (apply K; assumption); apply find_put_eq|].
  split; [apply Hold; [exact N3|exact E3|]; unfold ws'; rewrite !find_put_neq by (apply K; assumption); apply find_put_eq|].
  split; [apply Hold; [exact N4|exact E4|]; unfold ws'; apply find_put_eq|].
  split; [exact H1|]. split; [exact H2|]. split; [exact H3|]. split; [exact H4|].
  intros other d1 d2 d3 d4. unfold list_of, ws'. rewrite !find_put_neq; [reflexivity| | | |]; intros X.
  - apply d1. unfold same_name. rewrite X. symmetry. apply list_name_key, N1.
  - apply d2. unfold same_name. rewrite X. symmetry. apply list_name_key, N2.
  - apply d3. unfold same_name. rewrite X. symmetry. apply list_name_key, N3.
  - apply d4. unfold same_name. rewrite X. symmetry. apply list_name_key, N4.
Qed.

(** Variables over the same periods: equal when the values of every period are near, relatively to those of the workspace. *)
Theorem C94_value : forall eps a b : R, (0 < eps)%R -> K_cmpvar_1 reals eps a b = true <-> near eps a b.
Proof.
  intros eps a b E. unfold K_cmpvar_1, near. cbn. unfold r_eq, r_lt.
  destruct (Req_EM_T a b) as [->|N].
  - split; [intros _|reflexivity]. destruct (Req_EM_T b 0) as [->|Z]; [right; rewrite Rabs_R0; tauto|]. left. replace (b - b)%R with 0%R by ring. rewrite Rabs_R0. apply Rmult_lt_0_compat; [exact E|apply Rabs_pos_lt, Z].
  - destruct (Req_EM_T a 0) as [->|Z].
    + destruct (Rlt_dec (Rabs b) eps) as [L|L]; split; try tauto; try discriminate. intros [H|[_ H]]; [|tauto]. rewrite Rabs_R0, Rmult_0_r in H. pose proof (Rabs_pos (0 - b)). lra.
    + assert (P : (0 < Rabs a)%R) by (apply Rabs_pos_lt, Z).
      assert (Eq : (Rabs ((a - b) / a) * Rabs a = Rabs (a - b))%R) by (rewrite <- Rabs_mult; f_equal; field; exact Z).
      destruct (Rlt_dec (Rabs ((a - b) / a)) eps) as [L|L]; split; try tauto; try discriminate.
      * intros _. left. rewrite <- Eq. apply Rmult_lt_compat_r; assumption.
      * intros [H|[H _]]; [|contradiction]. exfalso. apply L. apply Rmult_lt_reg_r with (Rabs a); [exact P|]. rewrite Eq. exact H.
Qed.
(** The threshold that is used is positive and at most 1; it is the one that is given when that one is allowed. *)
Theorem C94_threshold : forall arg least : R, (0 < least <= 1)%R ->
  (0 < compare_eps reals arg least)%R /\ (least <= compare_eps reals arg least <= 1)%R /\ ((least <= arg <= 1)%R -> compare_eps reals arg least = arg).
Proof.
  intros arg least L. unfold compare_eps. change (lt reals) with r_lt. change (ofZ reals) with IZR. unfold r_lt.
  destruct (Rlt_dec arg least) as [A|A]; [destruct (Rlt_dec 1 least) as [B|B]|destruct (Rlt_dec 1 arg) as [B|B]]; lra.
Qed.
Print Assumptions C94_threshold.

Theorem C94_variables : forall n (eps : R) (v1 v2 : list R), (0 < eps)%R -> length v1 = n -> length v2 = n ->
  exists r, K_compare_var reals n eps v1 v2 = Ok r /\ (r = true <-> forall t, (t < n)%nat -> near eps (nth t v1 0%R) (nth t v2 0%R)).
Proof.
  induction n as [|n IH]; intros eps v1 v2 E L1 L2; [exists true; split; [reflexivity|split; [intros _ t Ht; lia|reflexivity]]|].
  destruct v1 as [|x v1]; [discriminate|]. destruct v2 as [|y v2]; [discriminate|]. cbn [K_compare_var]. pose proof (C94_value eps x y E) as V.
  destruct (K_cmpvar_1 reals eps x y).
  - destruct (IH eps v1 v2 E) as (r & -> & H); [cbn in L1; lia|cbn in L2; lia|]. exists r. split; [reflexivity|]. rewrite H. split.
    + intros A [|t] Ht; cbn [nth]; [apply V; reflexivity|apply A; lia].
    + intros A t Ht. exact (A (S t) ltac:(lia)).
  - exists false. split; [reflexivity|]. split; [discriminate|]. intros A. apply V. exact (A O ltac:(lia)).
Qed.

(** * Cases *)
Definition text_eq (a b : str) : res bool := Ok (str_eqb a b).
Definition ws1 : smap str := [(S2L "A", S2L "x"); (S2L "B", S2L "y"); (S2L "D", S2L "z")].
Definition file1 : smap str := [(S2L "A", S2L "x"); (S2L "C", S2L "u"); (S2L "D", S2L "w")].
Example database_case : database IDENTITIES ws1 /\ database IDENTITIES file1 /\ one_case IDENTITIES ws1 file1.
Proof. repeat split; try (intros n Hn; apply regex_iff; cbn in Hn; repeat (destruct Hn as [<-|Hn]; [reflexivity|]); contradiction); try (repeat constructor). intros H. discriminate. Qed.
Example compare_case : exists ws', DataCompare IDENTITIES text_eq [] ws1 file1 (S2L "one") (S2L "TWO") (S2L "THREE") (S2L "FOUR") = Ok (true, ws') /\
  list_of ws' (S2L "ONE") = Some (S2L "B") /\ list_of ws' (S2L "TWO") = Some (S2L "C") /\ list_of ws' (S2L "THREE") = Some (S2L "A") /\ list_of ws' (S2L "FOUR") = Some (S2L "D").
Proof. eexists. repeat split; vm_compute; reflexivity. Qed.

(** Comments: a name written in another case in the file is in list 3 (or 4) and also in list 2 ("in file only"). *)
Theorem C94_comments_refuted : exists K1 K2 : smap str, database COMMENTS K1 /\ database COMMENTS K2 /\
  compare COMMENTS text_eq K1 K2 = Ok ([], [S2L "gdp"], [S2L "GDP"], []).
Proof.
  exists [(S2L "GDP", S2L "product")], [(S2L "gdp", S2L "product")]. split; [|split; [|vm_compute; reflexivity]]; split; try (repeat constructor);
    intros n Hn; apply regex_iff; cbn in Hn; destruct Hn as [<-|[]]; reflexivity.
Qed.
Definition q (z : Z) : Qc := Q2Qc (inject_Z z).
(** Not symmetric: 10 and 11 differ, 11 and 10 are equal for a threshold between 1/11 and 1/10. *)
Theorem C94_symmetric_refuted : exists eps a b : R, (0 < eps)%R /\ K_cmpvar_1 reals eps a b = false /\ K_cmpvar_1 reals eps b a = true.
Proof.
  exists (95 / 1000)%R, 10%R, 11%R. split; [lra|]. split.
  - apply not_true_iff_false. rewrite C94_value by lra. unfold near. intros [H|[H _]]; [|lra]. rewrite (Rabs_left (10 - 11)), (Rabs_right 10) in H by lra. lra.
  - apply C94_value; [lra|]. left. rewrite (Rabs_right (11 - 10)), (Rabs_right 11) by lra. lra.
Qed.
(** Samples are not compared: [n] is the number of periods of the workspace, and values are compared by position.  A file whose
    sample starts one year later with the same values for the common years differs; a file that is one year shorter is read
    after its end. *)
Definition at_year (start : Z) (v : list Z) (y : Z) : option Z := if y <? start then None else nth_error v (Z.to_nat (y - start)).
Definition values (v : list Z) : list (F exactly) := map q v.
Theorem C94_samples_refuted : exists v1 v2 : list Z,
  (forall y a b, at_year 2000 v1 y = Some a -> at_year 2001 v2 y = Some b -> a = b) /\
  K_compare_var exactly 3 (Q2Qc (1 # 1000)) (values v1) (values v2) = Ok false /\
  K_compare_var exactly 3 (Q2Qc (1 # 1000)) (values v1) (values (firstn 2 v1)) = UB.
Proof.
  exists [1; 2; 3], [2; 3; 4]. split; [|split; vm_compute; reflexivity].
  intros y a b. unfold at_year. destruct (y <? 2000) eqn:A; [discriminate|]. destruct (y <? 2001) eqn:B; [discriminate|].
  assert (C : y = 2001 \/ y = 2002 \/ 2003 <= y) by lia. destruct C as [->|[->|C]]; [intros [= <-] [= <-]; reflexivity|intros [= <-] [= <-]; reflexivity|].
  intros H. assert (N : nth_error [1; 2; 3] (Z.to_nat (y - 2000)) = None) by (apply nth_error_None; cbn [length]; lia). rewrite N in H. discriminate.
Qed.
(** A workspace without objects is compared, a file without objects is an error and the four lists keep their old contents. *)
Theorem C94_empty_file_refuted : forall ws one two three four, DataCompare IDENTITIES text_eq ws ws1 [] one two three four = Ok (false, ws).
Proof. reflexivity. Qed.
(** The code is that of the fourth list: a refused name for the first one is not reported. *)
Theorem C94_code_refuted : exists ws', DataCompare IDENTITIES text_eq [] ws1 file1 (S2L "1") (S2L "TWO") (S2L "THREE") (S2L "FOUR") = Ok (true, ws') /\ length ws' = 3%nat.
Proof. eexists. split; vm_compute; reflexivity. Qed.

Print Assumptions C94_compare.
Print Assumptions C94_lists.
Print Assumptions C94_value.
Print Assumptions C94_variables.
Print Assumptions C94_comments_refuted.
Print Assumptions C94_symmetric_refuted.
Print Assumptions C94_samples_refuted.
Print Assumptions C94_empty_file_refuted.
Print Assumptions C94_code_refuted.
