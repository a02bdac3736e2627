(** C40, C41, C49, C50 and C51: the simulation of a model. *)
From Coq Require Import ZArith Ascii String List Bool Lia Permutation QArith Qcanon Floats.SpecFloat.
From Verif Require Import M_Base M_Names M_Lex M_Bytes M_Exec M_Exact M_Double M_Order M_Exo2endo M_Vars M_Simul
  S_Order S_Exo2endo S_Simul L_Simul4 L_Simul5 L_Simul6 L_Simul7 L_Simul8.
Import ListNotations.
Open Scope Z_scope.

(** * C40 *)

(** In exact arithmetic, with a threshold below 10: when a period succeeds, the interdependent variables are numbers
    and one more pass over the interdependent equations changes none of them by more than the threshold. The
    equations, the numerical solutions, the initial values, the relaxation (of either sign) and the keys are
    arbitrary; with exchanges, each equation contains the variable of its name.
    Missing for the full property: thresholds of 10 and more, infinities; see the counterexamples below. *)
Theorem C40_fixed_point_partial : forall f d j (P : params exactly) vars scl eqs l m given sort o key t s xk norm,
  built vars scl eqs l m -> sorted eqs m given sort o -> reads_only m f -> l = [] \/ own_inside eqs ->
  tiny P = q_tiny -> (eps P < q_ofZ 10)%Qc ->
  let Q := equations_of exactly f d j vars eqs in
  let r := simulate_period exactly Q P m o key t s xk norm in
  r_stop r = CONVERGED ->
  forall e v, interdependent o e -> endo_of m e v ->
    num exactly (r_s r v t) = true /\
    near (eps P) (r_s r v t) (one_more Q P (endo m) t (block o (o_pre o) (o_inter o)) (r_s r) v t).
Proof. exact period_fixed. Qed.
Print Assumptions C40_fixed_point_partial.

(** The number of passes is at most the maximum, in any arithmetic. *)
Theorem C40_passes_at_most_maximum : forall A Q P m o key t s xk norm,
  (r_iters (simulate_period A Q P m o key t s xk norm) <= maxit P)%nat.
Proof. exact period_iters. Qed.
Print Assumptions C40_passes_at_most_maximum.

(** Z := W, X := (Y + Z) / 2, Y := X / 2, T := X + Y. *)
Definition C40_vars : list str := [S2L "T"; S2L "W"; S2L "X"; S2L "Y"; S2L "Z"].
Definition C40_eqs : list (str * list str) :=
  [(S2L "T", [S2L "T"; S2L "X"; S2L "Y"]); (S2L "X", [S2L "X"; S2L "Y"; S2L "Z"]); (S2L "Y", [S2L "Y"; S2L "X"]); (S2L "Z", [S2L "Z"; S2L "W"])].
Definition model_or (vars : list str) (eqs : list (str * list str)) (l : list (str * str)) : model :=
  match link_model vars [] eqs with
  | Ok (Some m) => match exchanges vars (map fst eqs) m l with Ok (Some m) => m | _ => mkM [] [] [] end
  | _ => mkM [] [] []
  end.
Definition order_or (m : model) (eqs : list (str * list str)) (sort : sort_option) : ordering :=
  match order m (map fst eqs) [] sort 2 with Ok o => o | _ => mkO [] 0 0 0 end.
Definition C40_m : model := model_or C40_vars C40_eqs [].
Definition C40_o : ordering := order_or C40_m C40_eqs SORT_BOTH.
Definition C40_f (e : Z) (s : values exactly) (t : Z) : Qc :=
  match e with
  | 0 => Qcplus (s 2 t) (s 3 t)
  | 1 => Qcdiv (Qcplus (s 3 t) (s 4 t)) (q_ofZ 2)
  | 2 => Qcdiv (s 2 t) (q_ofZ 2)
  | 3 => s 1 t
  | _ => q_ofZ 0
  end.
Definition C40_P (relax : Z) : params exactly :=
  mkP exactly (Qcdiv (q_ofZ 1) (q_ofZ 1000)) (q_ofZ relax) 20 TM1 (Qcdiv (q_ofZ 1) (q_ofZ 1000000)) 50 q_tiny.
Definition C40_s (v t : Z) : Qc := if v =? 1 then q_ofZ 3 else q_na.
Definition C40_Q : eqns exactly := equations_of exactly C40_f (fun _ => false) (q_ofZ 0) C40_vars C40_eqs.
Definition C40_r (relax : Z) : outcome exactly := simulate_period exactly C40_Q (C40_P relax) C40_m C40_o (fun _ => false) 0 C40_s [] (q_ofZ 0).
Ltac occ := eexists; eexists; split; [reflexivity|split; [cbn; repeat (first [left; reflexivity|right])|reflexivity]].
Lemma C40_hyps : built C40_vars [] C40_eqs [] C40_m /\ sorted C40_eqs C40_m [] SORT_BOTH C40_o /\ reads_only C40_m C40_f.
Proof.
  split; [|split].
  - split; [repeat (constructor; [cbn; intuition discriminate|]); constructor|].
    split; [repeat (constructor; [cbn; intuition discriminate|]); constructor|]. exists C40_m. split; reflexivity.
  - split; [discriminate|]. exists 2%nat. reflexivity.
  - intros e s s' t H.
    destruct e as [|e|e]; [|destruct e as [[e|e|]|[e|e|]|]; try reflexivity|reflexivity]; cbn;
      repeat (match goal with |- context [s ?v t] => rewrite (H v t); [|occ] end);
      reflexivity.
Qed.
Example C40_ex : (eps (C40_P 1) < q_ofZ 10)%Qc /\ C40_o = mkO [3; 1; 2; 0] 1 2 1 /\
  r_stop (C40_r 1) = CONVERGED /\ r_iters (C40_r 1) = 2%nat /\ r_s (C40_r 1) 2 0 = q_ofZ 2 /\
  r_stop (C40_r (-1)) = CONVERGED /\ r_iters (C40_r (-1)) = 11%nat /\ r_s (C40_r (-1)) 2 0 = Qcdiv (q_ofZ 2047) (q_ofZ 1024) /\
  interdependent C40_o 1 /\ endo_of C40_m 1 2.
Proof.
  split; [reflexivity|]. split; [reflexivity|]. split; [vm_compute; reflexivity|]. split; [vm_compute; reflexivity|].
  split; [apply Qc_is_canon; vm_compute; reflexivity|]. split; [vm_compute; reflexivity|]. split; [vm_compute; reflexivity|].
  split; [apply Qc_is_canon; vm_compute; reflexivity|]. split; [|reflexivity]. exists 1%nat. split; [reflexivity|]. vm_compute. split; congruence.
Qed.

(** With a threshold of 10, initial missing values and no initialisation the simulation succeeds after a single
    pass; the missing values are stored again as the solution. *)
Theorem C40_missing_values_refuted : exists f d j (P : params exactly) vars scl eqs m sort o key t s xk norm,
  built vars scl eqs [] m /\ sorted eqs m [] sort o /\ reads_only m f /\ tiny P = q_tiny /\
  let r := simulate_period exactly (equations_of exactly f d j vars eqs) P m o key t s xk norm in
  r_stop r = CONVERGED /\ exists e v, interdependent o e /\ endo_of m e v /\ num exactly (r_s r v t) = false.
Proof.
  exists C40_f, (fun _ => false), (q_ofZ 0), (mkP exactly (q_ofZ 10) (q_ofZ 1) 20 ASIS (q_ofZ 1) 50 q_tiny), C40_vars, [], C40_eqs,
    C40_m, SORT_BOTH, C40_o, (fun _ => false), 0, (fun v _ => if v =? 3 then q_ofZ 5 else C40_s v 0), [], (q_ofZ 0).
  destruct C40_hyps as (H1 & H2 & H3). split; [exact H1|]. split; [exact H2|]. split; [exact H3|]. split; [reflexivity|]. cbv zeta.
  split; [vm_compute; reflexivity|]. exists 1%nat, 2. split; [apply C40_ex|]. split; vm_compute; reflexivity.
Qed.
Print Assumptions C40_missing_values_refuted.

(** The double X := 2 * Y overflows: the change from infinity to infinity is not a number, which passes for no change.
    The simulation succeeds; one more pass gives a result that is not a number. *)
Definition C40_over (e : Z) (s : values double) (t : Z) : dbl := match e with 0 => d_mul (d_ofZ 2) (s 1 t) | _ => d_ofZ 0 end.
Definition C40_vars2 : list str := [S2L "X"; S2L "Y"].
Definition C40_eqs2 : list (str * list str) := [(S2L "X", [S2L "X"; S2L "Y"])].
Theorem C40_overflow_refuted : exists f d j (P : params double) vars scl eqs m sort o key t s xk norm,
  built vars scl eqs [] m /\ sorted eqs m [] sort o /\ reads_only m f /\ (forall v p, num double (s v p) = true) /\
  let Q := equations_of double f d j vars eqs in
  let r := simulate_period double Q P m o key t s xk norm in
  r_stop r = CONVERGED /\ exists e v, interdependent o e /\ endo_of m e v /\
    num double (pass_seq double (fun e s => calculate double Q P e t (endo m e) s) (endo m) t (relax P) (block o (o_pre o) (o_inter o)) (r_s r) v t) = false.
Proof.
  exists C40_over, (fun _ => false), (d_ofZ 0), (mkP double (d_dec 1 4) (d_ofZ 1) 20 ASIS (d_dec 1 6) 50 (d_dec 1 36)), C40_vars2, [], C40_eqs2,
    (model_or C40_vars2 C40_eqs2 []), SORT_NONE, (order_or (model_or C40_vars2 C40_eqs2 []) C40_eqs2 SORT_NONE), (fun _ => false), 0,
    (fun v _ => if v =? 1 then d_ofZ (10 ^ 308) else d_ofZ 1), [], (d_ofZ 0).
  split. { split; [repeat (constructor; [cbn; intuition discriminate|]); constructor|].
    split; [repeat (constructor; [cbn; intuition discriminate|]); constructor|]. eexists. split; reflexivity. }
  split; [split; [auto|]; exists 2%nat; reflexivity|].
  split. { intros e s s' t H. destruct e; [|reflexivity..]. unfold C40_over. rewrite (H 1 t); [reflexivity|]. occ. }
  split; [intros v p; destruct (v =? 1); vm_compute; reflexivity|]. cbv zeta. split; [vm_compute; reflexivity|].
  exists 0%nat, 0. split; [exists 0%nat; split; [reflexivity|vm_compute; split; congruence]|]. split; vm_compute; reflexivity.
Qed.
Print Assumptions C40_overflow_refuted.

(** * C41 *)

(** Whatever the outcome, the simulation of a period changes only endogenous variables, at that period. *)
Theorem C41_period_frame : forall A Q P vars scl eqs l m given sort o key t s xk norm,
  built vars scl eqs l m -> sorted eqs m given sort o ->
  forall v p, r_s (simulate_period A Q P m o key t s xk norm) v p <> s v p -> p = t /\ exists e, endo_of m e v.
Proof.
  intros A Q P vars scl eqs l m given sort o key t s xk norm HB HS v p Hd.
  destruct (sorted_order _ _ _ _ _ _ _ _ HB HS) as (Pm & _). destruct (built_linked _ _ _ _ _ HB) as (L & _).
  destruct (period_only A Q P m o key t s xk norm v p) as [(-> & e & He & ->)|E]; [|easy]. split; [reflexivity|].
  apply (order_in m o Pm) in He as (k & -> & Hk). exists k. now apply endo_spec.
Qed.
Print Assumptions C41_period_frame.

(** The whole simulation without exchange: only the variables with an equation change, in the simulated periods. *)
Theorem C41_simulation_frame : forall A f d j P vars scl eqs given sort passes nb at_ bt n keys s norm s' ok,
  NoDup vars -> NoDup (map fst eqs) -> (sort = SORT_NONE -> given = [] \/ Permutation given (map fst eqs)) ->
  run A f d j P vars scl eqs [] given sort passes nb at_ bt n keys s norm = Ok (s', ok) ->
  forall v p, s' v p <> s v p -> at_ <= p < at_ + Z.of_nat n /\ exists name, In name (map fst eqs) /\ v = pos_of vars name.
Proof. exact run_frame_plain. Qed.
Print Assumptions C41_simulation_frame.

(** With exchanges: only the endogenous variables of the exchanged model in the simulated periods, and the variables
    exchanged in all the periods after the first one. *)
Theorem C41_exchanges_partial : forall A f d j P vars scl eqs l given sort passes nb at_ bt n keys s norm s' ok,
  NoDup vars -> NoDup (map fst eqs) -> (sort = SORT_NONE -> given = [] \/ Permutation given (map fst eqs)) ->
  run A f d j P vars scl eqs l given sort passes nb at_ bt n keys s norm = Ok (s', ok) ->
  forall v p, s' v p = s v p \/
    (at_ <= p < at_ + Z.of_nat n /\ exists m k, built vars scl eqs l m /\ endo_of m k v) \/
    (at_ < p < nb /\ exists c, In c l /\ v = pos_of vars (snd c)).
Proof. exact run_frame. Qed.
Print Assumptions C41_exchanges_partial.

(** The simulation has no undefined behaviour in its tables of positions. *)
Theorem C41_run_defined : forall A f d j P vars scl eqs l given sort passes nb at_ bt n keys s norm,
  NoDup vars -> NoDup (map fst eqs) -> (sort = SORT_NONE -> given = [] \/ Permutation given (map fst eqs)) ->
  run A f d j P vars scl eqs l given sort passes nb at_ bt n keys s norm <> UB.
Proof. exact run_defined. Qed.
Print Assumptions C41_run_defined.

Definition C41_run (l : list (str * str)) (n : nat) : res (values exactly * bool) :=
  run exactly C40_f (fun _ => false) (q_ofZ 0) (C40_P 1) C40_vars [] C40_eqs l [] SORT_BOTH 2 5 1 0 n (fun _ _ => false)
    (fun v p => if v =? 1 then q_ofZ 3 else q_ofZ 1) (q_ofZ 0).
Definition C41_at (r : res (values exactly * bool)) (v p : Z) : option (Q * bool) :=
  match r with Ok (s, ok) => Some (this (s v p), ok) | _ => None end.
Example C41_ex : C41_at (C41_run [] 2) 2 0 = Some (1%Q, true) /\ C41_at (C41_run [] 2) 2 1 = Some (2%Q, true) /\
  C41_at (C41_run [] 2) 2 2 = Some (2%Q, true) /\ C41_at (C41_run [] 2) 2 3 = Some (1%Q, true).
Proof. vm_compute. repeat split; reflexivity. Qed.

(** The exchange Z-W, simulated in period 1 only: the value found for W in period 1 replaces its values in the later
    periods 2 to 4, which are not simulated. *)
Theorem C41_exchanged_later_refuted : exists f d j (P : params exactly) vars scl eqs l sort passes nb at_ bt n keys s norm s' ok,
  NoDup vars /\ NoDup (map fst eqs) /\ sort <> SORT_NONE /\
  run exactly f d j P vars scl eqs l [] sort passes nb at_ bt n keys s norm = Ok (s', ok) /\
  exists v p, s' v p <> s v p /\ at_ + Z.of_nat n <= p.
Proof.
  exists C40_f, (fun _ => false), (q_ofZ 0), (C40_P 1), C40_vars, [], C40_eqs, [(S2L "Z", S2L "W")], SORT_BOTH, 2%nat, 5, 1, 0, 1%nat, (fun _ _ => false),
    (fun v p => if v =? 1 then q_ofZ 3 else q_ofZ 1), (q_ofZ 0).
  destruct C40_hyps as ((N1 & N2 & _) & _). 
  eexists. exists true. split; [exact N1|]. split; [exact N2|]. split; [discriminate|].
  split.
  { unfold run. cbn [C40_eqs]. fold C40_eqs.
    replace (link_model C40_vars [] C40_eqs) with (Ok (Some C40_m)) by reflexivity. cbn [rbind Z.ltb Z.compare orb].
    replace (exchanges C40_vars (map fst C40_eqs) C40_m [(S2L "Z", S2L "W")]) with (Ok (Some (model_or C40_vars C40_eqs [(S2L "Z", S2L "W")]))) by reflexivity.
    cbn [rbind].
    replace (order (model_or C40_vars C40_eqs [(S2L "Z", S2L "W")]) (map fst C40_eqs) [] SORT_BOTH 2) with
      (Ok (order_or (model_or C40_vars C40_eqs [(S2L "Z", S2L "W")]) C40_eqs SORT_BOTH)) by reflexivity.
    cbn [rbind]. match goal with |- Ok ?r = Ok (?x, ?y) => let H := fresh in assert (H : r = (fst r, true)); [|exact (f_equal Ok H)] end.
    match goal with |- ?r = (fst ?r, true) => assert (H : snd r = true) by (vm_compute; reflexivity); destruct r; cbn [fst snd] in *; now rewrite H end. }
  exists 1, 3. split; [|discriminate]. intros H. apply (f_equal this) in H. vm_compute in H. discriminate.
Qed.
Print Assumptions C41_exchanged_later_refuted.

(** * C49 *)

(** The solution [x] of equation [e] for the variable [v]: the value of the equation when [v] is its own variable,
    not used elsewhere in the equation; otherwise, when Newton's method finds a value, it is stored, nothing else is
    changed, and the equation is satisfied within the tolerance, possibly multiplied by the size of the variable or of
    the required result. Any arithmetic.
    Missing for the full property: the values found by the secant method; see the counterexample. *)
Theorem C49_newton_solution_partial : forall A Q P e t v s s' x, calculate A Q P e t v s = (s', x) ->
  (v = own Q e -> dup Q e = false -> s' = s /\ x = ev Q e s t) /\
  (v <> own Q e \/ dup Q e = true -> num A (snd (newton A Q P e t v s)) = true ->
   s' v t = x /\ (forall w p, s' w p <> s w p -> w = v /\ p = t) /\ num A (ev Q e s' t) = true /\
   exists tol, lt A (abs A (sub A (ev Q e s' t) (target Q e t v s'))) tol = true /\
    (tol = newton_eps P \/
     exists scale, (scale = s v t \/ scale = target Q e t v s) /\ lt A (ofZ A 1) (abs A scale) = true /\ tol = mul A (newton_eps P) (abs A scale))).
Proof.
  intros A Q P e t v s s' x H. split.
  { intros -> D. unfold calculate in H. rewrite D, Z.eqb_refl in H. inversion H. auto. }
  intros D Hn.
  assert (E : newton A Q P e t v s = (s', x)).
  { unfold calculate in H. replace (dup Q e || negb (v =? own Q e)) with true in H.
    - unfold zero in H. rewrite Hn in H. exact H.
    - destruct D as [D|D]; [apply Z.eqb_neq in D; rewrite D; symmetry; apply orb_true_r|now rewrite D]. }
  rewrite E in Hn. cbn [snd] in Hn. clear H.
  assert (G := newton_solves A Q P e t v s). rewrite E in G.
  destruct (G Hn) as (H1 & H2 & tol & [H3 H4] & H5). split; [exact H1|].
  split. { intros w p Hd. destruct (Z.eq_dec w v); [destruct (Z.eq_dec p t); [auto|]|]; exfalso; apply Hd, H2; tauto. }
  split; [exact H3|]. exists tol. auto.
Qed.
Print Assumptions C49_newton_solution_partial.

(** x * x = 2 - x from 3. *)
Definition C49_Q (f : dbl -> dbl) (garbage : Z) : eqns double := mkE double (fun _ s t => f (s 0 t)) (fun _ => true) (fun _ => 0) (d_ofZ garbage).
Definition C49_P : params double := mkP double (d_dec 1 4) (d_ofZ 1) 20 ASIS (d_dec 1 6) 50 (d_dec 1 36).
Definition C49_start (x : Z) : values double := fun _ _ => d_ofZ x.
Example C49_ex : let r := newton double (C49_Q (fun x => d_sub (d_add (d_mul x x) x) (d_ofZ 2)) 0) C49_P 0 0 0 (C49_start 3) in
  num double (snd r) = true /\ SFltb (SFabs (d_sub (snd r) (d_ofZ 1))) (d_dec 1 6) = true.
Proof. vm_compute. split; reflexivity. Qed.

(** f(x) = 1 + x * x for x >= 1, without value below (for instance 1 + x * x + 0 * sqrt(x - 1)). f has no zero but
    the secant method takes a missing value for a negative number: it finds 3, where f is 10. *)
Definition C49_f (x : dbl) : dbl := if SFltb x (d_ofZ 1) then d_na else d_add (d_ofZ 1) (d_mul x x).
Theorem C49_secant_refuted : exists Q (P : params double) e t v s, (forall w p, num double (s w p) = true) /\
  let '(s', x) := calculate double Q P e t v s in
  num double x = true /\ lt double (abs double (sub double (ev Q e (set s' v t x) t) (target Q e t v (set s' v t x)))) (d_ofZ 9) = false.
Proof.
  exists (C49_Q C49_f 0), C49_P, 0, 0, 0, (C49_start 2). split; [intros; vm_compute; reflexivity|]. vm_compute. split; reflexivity.
Qed.
Print Assumptions C49_secant_refuted.

(** The result of the secant method depends on the indeterminate value of a variable of the program. *)
Theorem C49_indeterminate_refuted : exists f (P : params double) s,
  snd (calculate double (C49_Q f 0) P 0 0 0 s) = d_ofZ 3 /\ snd (calculate double (C49_Q f 2) P 0 0 0 s) = d_na.
Proof. exists C49_f, C49_P, (C49_start 2). vm_compute. split; reflexivity. Qed.
Print Assumptions C49_indeterminate_refuted.

(** * C50 *)

(** Without exchanges, when the equations solved outside of the iterations are explicit: after a successful
    simulation of a period, a second one that starts from the values found succeeds in one pass and changes
    nothing. Any arithmetic, any interdependent equations; the contents of KSIM_XK and KSIM_NORM and the keys may be
    others. *)
Theorem C50_simulating_again_partial : forall A f d j P vars scl eqs m given sort o,
  built vars scl eqs [] m -> sorted eqs m given sort o -> reads_only m f ->
  (forall e, In (Z.of_nat e) (block o 0 (o_pre o) ++ block o (o_pre o + o_inter o) (o_post o)) ->
     d (Z.of_nat e) = false /\ explicit (own (equations_of A f d j vars eqs)) f (Z.of_nat e)) ->
  forall t key key' s xk xk' norm norm', key' 1%nat = false ->
  let Q := equations_of A f d j vars eqs in
  let r := simulate_period A Q P m o key t s xk norm in
  r_stop r = CONVERGED ->
  let r' := simulate_period A Q (keeping_values P) m o key' t (r_s r) xk' norm' in
  r_stop r' = CONVERGED /\ r_iters r' = 1%nat /\ forall v p, r_s r' v p = r_s r v p.
Proof. exact simulate_again. Qed.
Print Assumptions C50_simulating_again_partial.

Example C50_ex : forall e, In (Z.of_nat e) (block C40_o 0 1 ++ block C40_o 3 1) -> explicit (own C40_Q) C40_f (Z.of_nat e).
Proof.
  intros e He. change (block C40_o 0 1 ++ block C40_o 3 1) with [3; 0] in He.
  assert (e = 3 \/ e = 0)%nat as [->| ->] by (cbn in He; lia); intros s t x; reflexivity.
Qed.

(** An implicit equation outside of the iterations, of C49: the second simulation finds another value. *)
Definition C50_f (e : Z) (s : values double) (t : Z) : dbl := match e with 0 => C49_f (s 0 t) | _ => d_ofZ 0 end.
Definition C50_vars : list str := [S2L "X"].
Definition C50_eqs : list (str * list str) := [(S2L "X", [S2L "X"])].
Theorem C50_implicit_refuted : exists f d j (P : params double) vars scl eqs m sort o t key s xk norm,
  built vars scl eqs [] m /\ sorted eqs m [] sort o /\ reads_only m f /\ key 1%nat = false /\
  let Q := equations_of double f d j vars eqs in
  let r := simulate_period double Q P m o key t s xk norm in
  let r' := simulate_period double Q (keeping_values P) m o key t (r_s r) xk norm in
  r_stop r = CONVERGED /\ r_stop r' = CONVERGED /\ exists v, num double (r_s r v t) = true /\ r_s r' v t <> r_s r v t.
Proof.
  exists C50_f, (fun _ => true), (d_ofZ 0), C49_P, C50_vars, [], C50_eqs, (model_or C50_vars C50_eqs []), SORT_BOTH,
    (order_or (model_or C50_vars C50_eqs []) C50_eqs SORT_BOTH), 0, (fun _ => false), (C49_start 2), [], (d_ofZ 0).
  split. { split; [repeat (constructor; [cbn; intuition discriminate|]); constructor|].
    split; [repeat (constructor; [cbn; intuition discriminate|]); constructor|]. eexists. split; reflexivity. }
  split; [split; [discriminate|]; exists 2%nat; reflexivity|].
  split. { intros e s s' t H. destruct e; [|reflexivity..]. unfold C50_f. rewrite (H 0 t); [reflexivity|]. occ. }
  split; [reflexivity|]. cbv zeta. split; [vm_compute; reflexivity|]. split; [vm_compute; reflexivity|]. exists 0.
  split; [vm_compute; reflexivity|]. vm_compute. discriminate.
Qed.
Print Assumptions C50_implicit_refuted.

(** * C51 *)

(** In exact arithmetic, without exchange and when no interdependent equation is solved numerically: after a failure
    by lack of convergence, unless an equation has no value, the list _DIVER holds exactly the interdependent
    equations whose solution from the stored values, times the relaxation, is further from the stored value than
    the threshold. *)
Theorem C51_diver_list_partial : forall f d j (P : params exactly) vars scl eqs m given sort o,
  built vars scl eqs [] m -> sorted eqs m given sort o -> forall t,
  (forall e, interdependent o e -> d (Z.of_nat e) = false) -> tiny P = q_tiny -> (q_ofZ 0 <= relax P)%Qc ->
  forall key s xk norm,
  let r := simulate_period exactly (equations_of exactly f d j vars eqs) P m o key t s xk norm in
  r_stop r = TOO_LONG ->
  match diver r with
  | Some l => forall e, In (Z.of_nat e) l <->
      interdependent o e /\ exists v, endo_of m e v /\ q_num (r_s r v t) = true /\
        far (eps P) (relax P) (r_s r v t) (f (Z.of_nat e) (r_s r) t)
  | None => exists e, interdependent o e /\ q_num (f (Z.of_nat e) (r_s r) t) = false
  end.
Proof.
  intros f d j P vars scl eqs m given sort o HB HS t Hp T Hr key s xk norm r H.
  assert (G := diver_list f d j P vars scl eqs m given sort o HB HS t Hp key s xk norm H). fold r in G.
  destruct (diver r); [|exact G]. destruct G as (_ & G & _). now apply G.
Qed.
Print Assumptions C51_diver_list_partial.

(** With a negative relaxation, which asks for the other kind of iterations, no equation is ever listed. *)
Theorem C51_negative_relaxation : forall f d j (P : params exactly) vars scl eqs m given sort o,
  built vars scl eqs [] m -> sorted eqs m given sort o -> forall t,
  (forall e, interdependent o e -> d (Z.of_nat e) = false) -> tiny P = q_tiny -> (relax P < q_ofZ 0)%Qc -> (q_ofZ 0 <= eps P)%Qc ->
  forall key s xk norm l,
  let r := simulate_period exactly (equations_of exactly f d j vars eqs) P m o key t s xk norm in
  r_stop r = TOO_LONG -> diver r = Some l -> l = [].
Proof.
  intros f d j P vars scl eqs m given sort o HB HS t Hp T Hr He key s xk norm l r H Hd.
  assert (G := diver_list f d j P vars scl eqs m given sort o HB HS t Hp key s xk norm H). fold r in G.
  rewrite Hd in G. destruct G as (_ & _ & G). now apply G.
Qed.
Print Assumptions C51_negative_relaxation.

(** X := 3 * Y, Y := X, from 1, at most 5 iterations. *)
Definition C51_f (e : Z) (s : values exactly) (t : Z) : Qc := match e with 0 => Qcmult (q_ofZ 3) (s 1 t) | 1 => s 0 t | _ => q_ofZ 0 end.
Definition C51_vars : list str := [S2L "X"; S2L "Y"].
Definition C51_eqs : list (str * list str) := [(S2L "X", [S2L "X"; S2L "Y"]); (S2L "Y", [S2L "Y"; S2L "X"])].
Definition C51_P (relax : Z) : params exactly :=
  mkP exactly (Qcdiv (q_ofZ 1) (q_ofZ 1000)) (q_ofZ relax) 5 TM1 (Qcdiv (q_ofZ 1) (q_ofZ 1000000)) 50 q_tiny.
Definition C51_m : model := model_or C51_vars C51_eqs [].
Definition C51_o : ordering := order_or C51_m C51_eqs SORT_BOTH.
Definition C51_r (relax : Z) : outcome exactly :=
  simulate_period exactly (equations_of exactly C51_f (fun _ => false) (q_ofZ 0) C51_vars C51_eqs) (C51_P relax) C51_m C51_o (fun _ => false) 0 (fun _ _ => q_ofZ 1) [] (q_ofZ 0).
Lemma C51_hyps : built C51_vars [] C51_eqs [] C51_m /\ sorted C51_eqs C51_m [] SORT_BOTH C51_o.
Proof.
  split.
  - split; [repeat (constructor; [cbn; intuition discriminate|]); constructor|].
    split; [repeat (constructor; [cbn; intuition discriminate|]); constructor|]. eexists. split; reflexivity.
  - split; [discriminate|]. exists 2%nat. reflexivity.
Qed.
(** X is listed; Y is not, because it is solved with the value of X before the pass. *)
Example C51_ex : r_stop (C51_r 1) = TOO_LONG /\ diver (C51_r 1) = Some [0] /\ r_s (C51_r 1) 0 0 = q_ofZ 81 /\ r_s (C51_r 1) 1 0 = q_ofZ 81.
Proof.
  split; [vm_compute; reflexivity|]. split; [vm_compute; reflexivity|].
  split; apply Qc_is_canon; vm_compute; reflexivity.
Qed.
(** With the relaxation -1 the same model does not converge either and the list is empty. *)
Theorem C51_nothing_listed_refuted : exists f d j (P : params exactly) vars scl eqs m sort o t key s xk norm,
  built vars scl eqs [] m /\ sorted eqs m [] sort o /\ (forall e, interdependent o e -> d (Z.of_nat e) = false) /\ tiny P = q_tiny /\
  let r := simulate_period exactly (equations_of exactly f d j vars eqs) P m o key t s xk norm in
  r_stop r = TOO_LONG /\ diver r = Some [] /\
  exists e v, interdependent o e /\ endo_of m e v /\ q_num (r_s r v t) = true /\ far (eps P) (q_abs (relax P)) (r_s r v t) (f (Z.of_nat e) (r_s r) t).
Proof.
  exists C51_f, (fun _ => false), (q_ofZ 0), (C51_P (-1)), C51_vars, [], C51_eqs, C51_m, SORT_BOTH, C51_o, 0, (fun _ => false), (fun _ _ => q_ofZ 1), [], (q_ofZ 0).
  destruct C51_hyps as [H1 H2]. split; [exact H1|]. split; [exact H2|]. split; [reflexivity|]. split; [reflexivity|]. cbv zeta.
  split; [vm_compute; reflexivity|]. split; [vm_compute; reflexivity|]. exists 0%nat, 0.
  split; [exists 0%nat; split; [reflexivity|vm_compute; split; congruence]|]. split; [reflexivity|]. split; [vm_compute; reflexivity|].
  split; [vm_compute; reflexivity|right; vm_compute; reflexivity].
Qed.
Print Assumptions C51_nothing_listed_refuted.

(** * C52 *)

(** A simulation is refused without any change, or: when it succeeds, each period holds the values of a simulation of
    this period that converged; when it fails, there is a period whose simulation did not converge, the earlier
    periods hold the values of simulations that converged, and the later periods are unchanged but for the
    exchanged variables. *)
Theorem C52_periods : forall A f d j P vars scl eqs l given sort passes nb at_ bt n keys s norm s' ok,
  NoDup vars -> NoDup (map fst eqs) -> (sort = SORT_NONE -> given = [] \/ Permutation given (map fst eqs)) ->
  run A f d j P vars scl eqs l given sort passes nb at_ bt n keys s norm = Ok (s', ok) ->
  let Q := equations_of A f d j vars eqs in
  (ok = false /\ s' = s) \/
  exists m o, built vars scl eqs l m /\ sorted eqs m given sort o /\
    (ok = true -> forall k, 0 <= k < Z.of_nat n -> result_of A Q P m o keys s' (at_ + k) CONVERGED) /\
    (ok = false -> exists k why, 0 <= k < Z.of_nat n /\ why <> CONVERGED /\ result_of A Q P m o keys s' (at_ + k) why /\
       (forall i, 0 <= i < k -> result_of A Q P m o keys s' (at_ + i) CONVERGED) /\
       forall v p, at_ + k < p -> s' v p <> s v p -> exists c, In c l /\ v = pos_of vars (snd c)).
Proof.
  intros A f d j P vars scl eqs l given sort passes nb at_ bt n keys s norm s' ok NV NE Hs H Q.
  destruct (run_chain A f d j P vars scl eqs l given sort passes nb at_ bt n keys s norm s' ok NV NE Hs H) as [C|(m & o & B & S & C1 & C2)]; [now left|].
  right. exists m, o. split; [exact B|]. split; [exact S|]. split; [exact C1|]. intros Ho.
  destruct (C2 Ho) as (k & why & Hk & Hw & Hr & Hc & Hp). exists k, why. split; [exact Hk|]. split; [exact Hw|]. split; [exact Hr|]. split; [exact Hc|].
  intros v p Hlt Hd. specialize (Hp v p Hlt Hd). apply in_map_iff in Hp as (c & <- & Hin). now exists c.
Qed.
Print Assumptions C52_periods.

(** A simulation outside of the sample of the variables is refused. *)
Theorem C52_outside_refused : forall A f d j P vars scl eqs l given sort passes nb at_ bt n keys s norm,
  at_ < 0 \/ bt < 0 -> run A f d j P vars scl eqs l given sort passes nb at_ bt n keys s norm = Ok (s, false).
Proof.
  intros A f d j P vars scl eqs l given sort passes nb at_ bt n keys s norm H. unfold run. destruct eqs; [reflexivity|].
  replace ((bt <? 0) || (at_ <? 0)) with true; [reflexivity|]. destruct H as [H|H]; apply Z.ltb_lt in H; rewrite H; [now rewrite orb_true_r|reflexivity].
Qed.
Print Assumptions C52_outside_refused.

(** The model of C51 over two periods stops in the first one; that of C40 succeeds in both (C41_ex). *)
Example C52_ex : match run exactly C51_f (fun _ => false) (q_ofZ 0) (C51_P 1) C51_vars [] C51_eqs [] [] SORT_BOTH 2 5 1 0 2 (fun _ _ => false)
    (fun _ _ => q_ofZ 1) (q_ofZ 0) with Ok (s, ok) => (ok, this (s 0 1), this (s 0 2)) = (false, 81%Q, 1%Q) | _ => False end.
Proof. vm_compute. reflexivity. Qed.
