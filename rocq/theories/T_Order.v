(** C37 to C39: the order of the equations of a model. *)
From Coq Require Import ZArith Ascii String List Bool Lia Permutation Relations.
From Verif Require Import M_Base M_Names M_Lex M_Bytes M_Order S_Order L_Order5.
Import ListNotations.
Open Scope Z_scope.

(** * C37 *)

(** Each equation is in the order exactly once and the sizes of the blocks add up, for any dependency graph,
    sort option and number of passes; when no sorting is asked for, the order given by the user must be empty
    or a permutation of the names of the equations. *)
Theorem C37_order_is_a_permutation_partial : forall eqs m dbe given sort passes,
  NoDup (map fst eqs) -> model_of eqs m ->
  (sort = SORT_NONE -> dbe = map fst eqs /\ (given = [] \/ Permutation given dbe)) ->
  exists o, order m dbe given sort passes = Ok o /\
    Permutation (o_order o) (map Z.of_nat (seq 0 (length eqs))) /\
    0 <= o_pre o /\ 0 <= o_inter o /\ 0 <= o_post o /\ o_pre o + o_inter o + o_post o = Z.of_nat (length eqs).
Proof. exact order_c37. Qed.
Print Assumptions C37_order_is_a_permutation_partial.

(** Without sorting all the equations are iterated, in the order given by the user or else of the workspace. *)
Theorem C37_given_order : forall eqs m given passes,
  NoDup (map fst eqs) -> model_of eqs m -> given = [] \/ Permutation given (map fst eqs) ->
  exists o, order m (map fst eqs) given SORT_NONE passes = Ok o /\ o_inter o = Z.of_nat (length eqs) /\
    forall r n ns, nth_error (match given with [] => map fst eqs | _ => given end) r = Some n ->
      forall e, nth_error eqs e = Some (n, ns) -> at_rank o r e.
Proof. exact order_given. Qed.
Print Assumptions C37_given_order.

(** Linking is never undefined. *)
Theorem C37_linking_ends : forall vars scl eqs, NoDup vars -> NoDup (map fst eqs) ->
  exists r, link_model vars scl eqs = Ok r.
Proof. intros vars scl eqs N M. destruct (link_model_ok vars scl eqs N M) as (r & E & _). eauto. Qed.
Print Assumptions C37_linking_ends.

(** A model with a prolog, an epilog and a simultaneous block. *)
Definition C37_eqs : list (str * list str) :=
  [(S2L "A", [S2L "A"; S2L "X"]); (S2L "B", [S2L "B"; S2L "A"; S2L "C"; S2L "b1"]); (S2L "C", [S2L "C"; S2L "D"]);
   (S2L "D", [S2L "D"; S2L "B"; S2L "X"]); (S2L "E", [S2L "E"; S2L "F"]); (S2L "F", [S2L "F"; S2L "C"])].
Definition C37_vars : list str := [S2L "A"; S2L "B"; S2L "C"; S2L "D"; S2L "E"; S2L "F"; S2L "X"].
Definition C37_model : model :=
  match link_model C37_vars [S2L "b1"] C37_eqs with Ok (Some m) => m | _ => link_endos C37_eqs end.
Example C37_ex : NoDup (map fst C37_eqs) /\ model_of C37_eqs C37_model /\
  order C37_model (map fst C37_eqs) [] SORT_BOTH 3 = Ok (mkO [0; 1; 3; 2; 5; 4] 1 3 2).
Proof.
  split; [repeat (constructor; [cbn; intuition discriminate|]); constructor|]. split; [|reflexivity].
  left. exists C37_vars, [S2L "b1"]. split; [repeat (constructor; [cbn; intuition discriminate|]); constructor|reflexivity].
Qed.

(** Without sorting, an equation named twice by the user is executed twice and another one not at all. *)
Theorem C37_named_twice_refuted : exists eqs m given o,
  NoDup (map fst eqs) /\ model_of eqs m /\ (forall n, In n given <-> In n (map fst eqs)) /\
  order m (map fst eqs) given SORT_NONE 0 = Ok o /\ ~ Permutation (o_order o) (map Z.of_nat (seq 0 (length eqs))).
Proof.
  exists [(S2L "A", [S2L "A"; S2L "B"]); (S2L "B", [S2L "B"; S2L "A"])], (link_endos [(S2L "A", [S2L "A"; S2L "B"]); (S2L "B", [S2L "B"; S2L "A"])]),
    [S2L "A"; S2L "A"; S2L "B"]. eexists.
  split; [repeat (constructor; [cbn; intuition discriminate|]); constructor|]. split; [now right|].
  split; [intros n; cbn; intuition|]. split; [reflexivity|]. cbn. intros P.
  assert (In 1 [0; 0]); [|cbn in *; intuition discriminate].
  apply (Permutation_in (l := [0; 1])); [now apply Permutation_sym|]. right. now left.
Qed.
Print Assumptions C37_named_twice_refuted.

(** And a shorter list is read after its end. *)
Theorem C37_too_short_refuted : exists eqs m given,
  NoDup (map fst eqs) /\ model_of eqs m /\ incl given (map fst eqs) /\ order m (map fst eqs) given SORT_NONE 0 = UB.
Proof.
  exists [(S2L "A", [S2L "A"; S2L "B"]); (S2L "B", [S2L "B"; S2L "A"])], (link_endos [(S2L "A", [S2L "A"; S2L "B"]); (S2L "B", [S2L "B"; S2L "A"])]), [S2L "A"].
  split; [repeat (constructor; [cbn; intuition discriminate|]); constructor|]. split; [now right|].
  split; [intros n; cbn; intuition|reflexivity].
Qed.
Print Assumptions C37_too_short_refuted.

(** * C38 *)

(** An equation of the prolog reads only the results of earlier equations; the result of an equation of the
    epilog is read only by later equations. *)
Theorem C38_blocks_respect_dependencies : forall eqs m dbe given sort passes o,
  NoDup (map fst eqs) -> model_of eqs m -> sort <> SORT_NONE -> order m dbe given sort passes = Ok o ->
  forall i k a b, reads eqs i k -> at_rank o a i -> at_rank o b k ->
    (Z.of_nat a < o_pre o -> (b < a)%nat) /\ (o_pre o + o_inter o <= Z.of_nat b -> (b < a)%nat).
Proof. exact order_c38. Qed.
Print Assumptions C38_blocks_respect_dependencies.

(** In the model above, equation E (4) reads F (5), and F reads C (2), of the simultaneous block. *)
Example C38_ex : reads C37_eqs 4 5 /\ reads C37_eqs 5 2 /\
  exists o, order C37_model (map fst C37_eqs) [] SORT_CONNEX 0 = Ok o /\ at_rank o 5 4 /\ at_rank o 4 5 /\ at_rank o 2 2 /\
    o_pre o + o_inter o = 4.
Proof.
  split; [|split].
  - split; [discriminate|]. exists (S2L "E"), [S2L "E"; S2L "F"], (S2L "F"), [S2L "F"; S2L "C"]. cbn. intuition.
  - split; [discriminate|]. exists (S2L "F"), [S2L "F"; S2L "C"], (S2L "C"), [S2L "C"; S2L "D"]. cbn. intuition.
  - eexists. split; [reflexivity|]. repeat split; reflexivity.
Qed.

(** * C39 *)

(** Without simultaneity no equation is iterated, every equation comes after those it reads, and all are in the
    prolog when the equations have no coefficient. *)
Theorem C39_recursive_models_partial : forall eqs m dbe given sort passes o,
  NoDup (map fst eqs) -> model_of eqs m -> sort <> SORT_NONE -> no_simultaneity eqs ->
  order m dbe given sort passes = Ok o ->
  o_inter o = 0 /\ (forall i k a b, reads eqs i k -> at_rank o a i -> at_rank o b k -> (b < a)%nat) /\
  (without_coefficients eqs -> o_pre o = Z.of_nat (length eqs)).
Proof. exact order_c39. Qed.
Print Assumptions C39_recursive_models_partial.

(** A chain given in the wrong order. *)
Definition C39_eqs : list (str * list str) :=
  [(S2L "A", [S2L "A"; S2L "B"; S2L "X"]); (S2L "B", [S2L "B"; S2L "C"]); (S2L "C", [S2L "C"; S2L "X"])].
Lemma C39_rank : forall i k, reads C39_eqs i k -> (i < k < 3)%nat.
Proof.
  intros i k (Hne & n & names & nk & nsk & Hi & Hk & Hin & _).
  destruct k as [|[|[|[|k]]]]; [| | |discriminate|discriminate]; cbn in Hk; inversion Hk; subst;
  destruct i as [|[|[|[|i]]]]; try discriminate; cbn in Hi; inversion Hi; subst; cbn in Hin;
  try lia; exfalso; intuition discriminate.
Qed.
Example C39_ex : no_simultaneity C39_eqs /\ without_coefficients C39_eqs /\ model_of C39_eqs (link_endos C39_eqs) /\
  order (link_endos C39_eqs) (map fst C39_eqs) [] SORT_CONNEX 0 = Ok (mkO [2; 1; 0] 3 0 0).
Proof.
  split; [|split; [|split; [now right|reflexivity]]].
  - intros i C. assert (G : forall x y, clos_trans nat (reads C39_eqs) x y -> (x < y)%nat).
    { intros x y T. induction T as [x y Q|x y z _ IH1 _ IH2]; [apply C39_rank in Q; lia|lia]. }
    apply G in C. lia.
  - intros n names w H Hw. cbn in H.
    repeat (destruct H as [H|H]; [inversion H; subst; cbn in Hw; repeat (destruct Hw as [<-|Hw]; [reflexivity|]); contradiction|]).
    contradiction.
Qed.

(** A coefficient is taken for a reference to the first equation: the single equation A of this model, which
    reads nothing but X and a coefficient, is not put in the prolog. *)
Theorem C39_coefficients_refuted : exists eqs m o,
  NoDup (map fst eqs) /\ model_of eqs m /\ no_simultaneity eqs /\
  order m (map fst eqs) [] SORT_CONNEX 0 = Ok o /\ o_pre o <> Z.of_nat (length eqs).
Proof.
  exists [(S2L "A", [S2L "A"; S2L "c1"; S2L "X"])], (link_endos [(S2L "A", [S2L "A"; S2L "c1"; S2L "X"])]). eexists.
  split; [repeat constructor; cbn; intuition|]. split; [now right|]. split; [|split; [reflexivity|discriminate]].
  intros i C. assert (G : forall x y, clos_trans nat (reads [(S2L "A", [S2L "A"; S2L "c1"; S2L "X"])]) x y -> False); [|now apply G in C].
  intros x y T. induction T as [x y (Hne & n & names & nk & nsk & Hi & Hk & _)|]; [|assumption].
  destruct x as [|[|x]]; [|discriminate|discriminate]. destruct y as [|[|y]]; [congruence|discriminate|discriminate].
Qed.
Print Assumptions C39_coefficients_refuted.
