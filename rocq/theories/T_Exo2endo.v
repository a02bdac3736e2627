(** C42 and C43: goal seeking, exchange of endogenous and exogenous variables. *)
From Coq Require Import ZArith Ascii String List Bool Lia Permutation Relations.
From Verif Require Import M_Base M_Names M_Lex M_Bytes M_Order M_Exo2endo S_Order S_Exo2endo L_Order4 L_Order5 L_Exo2 L_Exo3.
Import ListNotations.
Open Scope Z_scope.

(** * C42 *)

(** An exchange is refused exactly when the first variable has no equation, the second one does not exist or has
    an equation, or when no equation on a chain of dependencies of the first one contains the second one. *)
Theorem C42_exchange_refused_iff : forall vars scl eqs m endo exo, NoDup vars -> NoDup (map fst eqs) ->
  link_model vars scl eqs = Ok (Some m) ->
  (exists r, exchange vars (map fst eqs) m endo exo = Ok r) /\
  (exchange vars (map fst eqs) m endo exo = Ok None <->
     ~ (exists e, named eqs e endo) \/ ~ In exo vars \/ (exists e, named eqs e exo) \/
     exists e, named eqs e endo /\ forall k, clos_refl_trans nat (reads eqs) e k -> ~ has_var eqs k exo).
Proof. intros vars scl eqs m endo exo NV NE E. apply exchange_refused; auto. now apply (link_model_good vars scl). Qed.
Print Assumptions C42_exchange_refused_iff.

(** A successful exchange: each equation has an endogenous variable, different from those of the others; it is its
    own or occurs in the equation; exactly one variable is endogenous no more, and the exogenous variable becomes
    endogenous. The variable that is endogenous no more is the one that was asked for when each loop of
    dependencies through its equation meets an equation containing the exogenous variable. *)
Theorem C42_exchange_partial : forall vars scl eqs m endo exo m', NoDup vars -> NoDup (map fst eqs) ->
  link_model vars scl eqs = Ok (Some m) -> exchange vars (map fst eqs) m endo exo = Ok (Some m') ->
  (forall k, (k < length eqs)%nat -> exists n, solved_for vars m' k n) /\
  (forall i k n, solved_for vars m' i n -> solved_for vars m' k n -> i = k) /\
  (forall k n, solved_for vars m' k n -> named eqs k n \/ has_var eqs k n) /\
  exists d, In d (map fst eqs) /\
    (forall n, (exists k, solved_for vars m' k n) <-> n = exo \/ (In n (map fst eqs) /\ n <> d)) /\
    (forall e, named eqs e endo -> ~ clos_trans nat (reads_without eqs exo) e e -> d = endo).
Proof.
  intros vars scl eqs m endo exo m' NV NE E H.
  apply (exchange_done vars eqs m NV NE (link_model_good vars scl eqs m NE E) endo exo m' H).
Qed.
Print Assumptions C42_exchange_partial.

(** The example at the top of k_sim_exo2endo.cpp (35-56): the exchange Y1-X2. *)
Definition C42_vars : list str := [S2L "X1"; S2L "X2"; S2L "Y1"; S2L "Y2"; S2L "Y3"].
Definition C42_eqs : list (str * list str) :=
  [(S2L "Y1", [S2L "Y1"; S2L "Y2"; S2L "X1"]); (S2L "Y2", [S2L "Y2"; S2L "Y3"; S2L "X1"]);
   (S2L "Y3", [S2L "Y3"; S2L "Y1"; S2L "Y2"; S2L "X1"; S2L "X2"])].
Definition linked_or (vars : list str) (eqs : list (str * list str)) : model :=
  match link_model vars [] eqs with Ok (Some m) => m | _ => mkM [] [] [] end.
Definition endos (vars : list str) (r : res (option model)) : list (option str) :=
  match r with Ok (Some m) => map (fun v => nth_error vars (Z.to_nat v)) (posxk m) | _ => [] end.
Example C42_ex : NoDup C42_vars /\ NoDup (map fst C42_eqs) /\
  link_model C42_vars [] C42_eqs = Ok (Some (linked_or C42_vars C42_eqs)) /\
  endos C42_vars (exchange C42_vars (map fst C42_eqs) (linked_or C42_vars C42_eqs) (S2L "Y1") (S2L "X2")) =
    [Some (S2L "Y2"); Some (S2L "Y3"); Some (S2L "X2")].
Proof.
  split; [repeat (constructor; [cbn; intuition discriminate|]); constructor|].
  split; [repeat (constructor; [cbn; intuition discriminate|]); constructor|]. split; reflexivity.
Qed.

(** Y0 = f(Y1, Y2), Y1 = g(Y0), Y2 = h(X): the exchange Y0-X succeeds, but Y0 stays endogenous and the value of Y2
    is the one that is kept. *)
Definition C42_vars2 : list str := [S2L "X"; S2L "Y0"; S2L "Y1"; S2L "Y2"].
Definition C42_eqs2 : list (str * list str) :=
  [(S2L "Y0", [S2L "Y0"; S2L "Y1"; S2L "Y2"]); (S2L "Y1", [S2L "Y1"; S2L "Y0"]); (S2L "Y2", [S2L "Y2"; S2L "X"])].
Theorem C42_wrong_variable_refuted : exists vars eqs m endo exo m',
  NoDup vars /\ NoDup (map fst eqs) /\ link_model vars [] eqs = Ok (Some m) /\
  exchange vars (map fst eqs) m endo exo = Ok (Some m') /\ exists k, solved_for vars m' k endo.
Proof.
  exists C42_vars2, C42_eqs2, (linked_or C42_vars2 C42_eqs2), (S2L "Y0"), (S2L "X"). eexists.
  split; [repeat (constructor; [cbn; intuition discriminate|]); constructor|].
  split; [repeat (constructor; [cbn; intuition discriminate|]); constructor|].
  split; [reflexivity|]. split; [vm_compute; reflexivity|]. exists 1%nat, 1%nat. split; reflexivity.
Qed.
Print Assumptions C42_wrong_variable_refuted.

(** The order computed after an exchange is a permutation of the equations and respects the dependencies between
    equations and their new endogenous variables. *)
Theorem C42_order_after_exchange : forall vars scl eqs m endo exo m' dbe given sort passes,
  NoDup vars -> NoDup (map fst eqs) -> link_model vars scl eqs = Ok (Some m) ->
  exchange vars (map fst eqs) m endo exo = Ok (Some m') -> sort <> SORT_NONE ->
  exists o, order m' dbe given sort passes = Ok o /\ Permutation (o_order o) (map Z.of_nat (seq 0 (length eqs))) /\
    forall i k n a b, i <> k -> has_var eqs i n -> solved_for vars m' k n -> at_rank o a i -> at_rank o b k ->
      (Z.of_nat a < o_pre o -> (b < a)%nat) /\ (o_pre o + o_inter o <= Z.of_nat b -> (b < a)%nat).
Proof. exact order_after_exchange. Qed.
Print Assumptions C42_order_after_exchange.

(** * C43 *)

(** Any sequence of exchanges: no undefined behaviour and, when all are accepted, the equations have pairwise
    distinct endogenous variables. *)
Theorem C43_sequences_keep_distinct_endogenous_partial : forall vars scl eqs m l,
  NoDup vars -> NoDup (map fst eqs) -> link_model vars scl eqs = Ok (Some m) ->
  exchanges vars (map fst eqs) m l <> UB /\
  forall m', exchanges vars (map fst eqs) m l = Ok (Some m') ->
    (forall k, (k < length eqs)%nat -> exists n, solved_for vars m' k n) /\
    (forall i k n, solved_for vars m' i n -> solved_for vars m' k n -> i = k).
Proof. exact exchanges_distinct. Qed.
Print Assumptions C43_sequences_keep_distinct_endogenous_partial.

(** Sequences of direct exchanges (the exogenous variable is in the equation of the endogenous one) between
    different variables are all applied, and nothing else changes. *)
Theorem C43_direct_exchanges_partial : forall vars scl eqs m l,
  NoDup vars -> NoDup (map fst eqs) -> link_model vars scl eqs = Ok (Some m) ->
  NoDup (map fst l) -> NoDup (map snd l) ->
  (forall a x, In (a, x) l -> (exists e, named eqs e a /\ has_var eqs e x) /\ ~ exists k, named eqs k x) ->
  exists m', exchanges vars (map fst eqs) m l = Ok (Some m') /\
    (forall a x k, In (a, x) l -> named eqs k a -> solved_for vars m' k x) /\
    (forall k n, named eqs k n -> ~ In n (map fst l) -> solved_for vars m' k n).
Proof. exact direct_exchanges. Qed.
Print Assumptions C43_direct_exchanges_partial.

Definition C43_vars : list str := [S2L "X"; S2L "Y0"; S2L "Y1"; S2L "Z"].
Definition C43_eqs : list (str * list str) := [(S2L "Y0", [S2L "Y0"; S2L "Y1"]); (S2L "Y1", [S2L "Y1"; S2L "X"; S2L "Z"])].
Lemma C43_link : NoDup C43_vars /\ NoDup (map fst C43_eqs) /\ link_model C43_vars [] C43_eqs = Ok (Some (linked_or C43_vars C43_eqs)).
Proof.
  split; [repeat (constructor; [cbn; intuition discriminate|]); constructor|].
  split; [repeat (constructor; [cbn; intuition discriminate|]); constructor|]. reflexivity.
Qed.
Example C43_ex : endos C42_vars (exchanges C42_vars (map fst C42_eqs) (linked_or C42_vars C42_eqs) [(S2L "Y3", S2L "X2"); (S2L "Y1", S2L "X1")]) =
    [Some (S2L "X1"); Some (S2L "Y2"); Some (S2L "X2")].
Proof. reflexivity. Qed.

(** Each exchange applies to the result of the previous ones, and a refused one ends the whole sequence. *)
Theorem C43_one_after_the_other : forall vars dbe m l1 m1 endo exo l2, exchanges vars dbe m l1 = Ok (Some m1) ->
  (exchange vars dbe m1 endo exo = Ok None -> exchanges vars dbe m (l1 ++ (endo, exo) :: l2) = Ok None) /\
  (forall m2, exchange vars dbe m1 endo exo = Ok (Some m2) ->
     exchanges vars dbe m (l1 ++ (endo, exo) :: l2) = exchanges vars dbe m2 l2).
Proof.
  intros vars dbe m l1 m1 endo exo l2. revert m. induction l1 as [|[a x] l1 IH]; intros m; cbn [exchanges app].
  - intros H. inversion H; subst. split; [intros ->|intros m2 ->]; reflexivity.
  - destruct (exchange vars dbe m a x) as [[m'|]| |]; try discriminate. cbn [rbind]. apply IH.
Qed.
Print Assumptions C43_one_after_the_other.

(** Y0 = f(Y1), Y1 = g(X, Z): after the exchange Y0-X the equations are solved for Y1 and X; the exchange Y1-Z,
    which would leave nothing to solve Y0 for, is accepted: equation Y0 is solved for Z, which is not in it. *)
Theorem C43_second_exchange_refuted : exists vars eqs m l m' k n,
  NoDup vars /\ NoDup (map fst eqs) /\ link_model vars [] eqs = Ok (Some m) /\
  exchanges vars (map fst eqs) m l = Ok (Some m') /\ solved_for vars m' k n /\ ~ named eqs k n /\ ~ has_var eqs k n.
Proof.
  exists C43_vars, C43_eqs, (linked_or C43_vars C43_eqs), [(S2L "Y0", S2L "X"); (S2L "Y1", S2L "Z")]. eexists. exists 0%nat, (S2L "Z").
  destruct C43_link as (A & B & C). split; [exact A|]. split; [exact B|]. split; [exact C|]. split; [vm_compute; reflexivity|].
  split; [exists 3%nat; split; reflexivity|]. split.
  - intros (ns & H). cbn in H. discriminate.
  - intros (nk & names & H & Hin & _). cbn in H. inversion H; subst. cbn in Hin. intuition discriminate.
Qed.
Print Assumptions C43_second_exchange_refuted.

(** Y1-X then Y1-Z: Y1 is not endogenous any more but the second exchange is accepted, and undoes the first. *)
Theorem C43_no_more_endogenous_refuted : exists vars eqs m m1 m2 endo exo1 exo2,
  NoDup vars /\ NoDup (map fst eqs) /\ link_model vars [] eqs = Ok (Some m) /\
  exchange vars (map fst eqs) m endo exo1 = Ok (Some m1) /\ (forall k, ~ solved_for vars m1 k endo) /\
  exchange vars (map fst eqs) m1 endo exo2 = Ok (Some m2) /\ (forall k, ~ solved_for vars m2 k exo1).
Proof.
  exists C43_vars, C43_eqs, (linked_or C43_vars C43_eqs). eexists. eexists. exists (S2L "Y1"), (S2L "X"), (S2L "Z").
  destruct C43_link as (A & B & C). split; [exact A|]. split; [exact B|]. split; [exact C|]. split; [vm_compute; reflexivity|].
  split; [|split; [vm_compute; reflexivity|]].
  - intros k (v & Hv & Hn). unfold endo_of in Hv. cbn [posxk] in Hv. destruct k as [|[|[|k]]]; try discriminate; inversion Hv; subst;
    [assert (v = 1%nat) by lia|assert (v = 0%nat) by lia]; subst v; discriminate.
  - intros k (v & Hv & Hn). unfold endo_of in Hv. cbn [posxk] in Hv. destruct k as [|[|[|k]]]; try discriminate; inversion Hv; subst;
    [assert (v = 1%nat) by lia|assert (v = 3%nat) by lia]; subst v; discriminate.
Qed.
Print Assumptions C43_no_more_endogenous_refuted.

(** Y0-X (through Y1) then X-Z: X is endogenous now, but the search raises an exception. *)
Theorem C43_new_endogenous_refuted : exists vars eqs m m1 k endo exo,
  NoDup vars /\ NoDup (map fst eqs) /\ link_model vars [] eqs = Ok (Some m) /\
  exchange vars (map fst eqs) m (S2L "Y0") endo = Ok (Some m1) /\ solved_for vars m1 k endo /\ has_var eqs k exo /\
  exchange vars (map fst eqs) m1 endo exo = Throw.
Proof.
  exists C43_vars, C43_eqs, (linked_or C43_vars C43_eqs). eexists. exists 1%nat, (S2L "X"), (S2L "Z").
  destruct C43_link as (A & B & C). split; [exact A|]. split; [exact B|]. split; [exact C|]. split; [vm_compute; reflexivity|].
  split; [exists 0%nat; split; reflexivity|]. split; [|vm_compute; reflexivity].
  eexists. eexists. split; [reflexivity|]. split; [cbn; auto|reflexivity].
Qed.
Print Assumptions C43_new_endogenous_refuted.
