(** Property C104: what the diagnostics of a simulation say, and what the commands that save them leave. *)
From Coq Require Import ZArith Ascii String List Bool Lia ZifyBool Permutation QArith Qcanon Floats.SpecFloat.
From Verif Require Import M_Base M_Report M_Time M_Names M_Bytes M_Exec M_Exact M_Double M_Kdb M_Ascii M_Order M_Exo2endo M_Simul M_SimDiag
  S_Names S_Order S_Lists S_Simul S_SimDiag L_Names L_Kdb L_Ascii L_Lists2 L_Simul8 L_SimDiag T_Simul.
Import ListNotations.
Open Scope Z_scope.

(** The values are those of the simulation without diagnostics. An empty set of equations, or a sample out of that of
    the variables, leaves the former diagnostics. Otherwise there is one number of passes and one norm for each
    period of the variables. A refused simulation leaves zeros. On success, each simulated period took between 1
    pass and the maximum, and its norm is not above the threshold; zeros elsewhere. On failure, there is a period
    that stopped for another reason, whose diagnostics say so when the maximum is reached; the earlier ones
    converged; zeros elsewhere. The diagnostics and the values of a period come from the same simulation. *)
Theorem C104_run : forall A f d j P vars scl eqs l given sort passes nb at_ bt n keys s norm prev s' ok dg,
  NoDup vars -> NoDup (map fst eqs) -> (sort = SORT_NONE -> given = [] \/ Permutation given (map fst eqs)) ->
  run_d A f d j P vars scl eqs l given sort passes nb at_ bt n keys s norm prev = Ok (s', ok, dg) ->
  let Q := equations_of A f d j vars eqs in
  run A f d j P vars scl eqs l given sort passes nb at_ bt n keys s norm = Ok (s', ok) /\
  (((eqs = [] \/ at_ < 0 \/ bt < 0) /\ ok = false /\ s' = s /\ dg = prev) \/
   eqs <> [] /\ 0 <= at_ /\ 0 <= bt /\ exists g, dg = Some g /\ d_nb g = nb /\
   (forall p, p < at_ \/ at_ + Z.of_nat n <= p -> untouched A g p) /\
   ((ok = false /\ s' = s /\ forall p, untouched A g p) \/
    exists m o, built vars scl eqs l m /\ S_Simul.sorted eqs m given sort o /\
    (ok = true -> forall k, 0 <= k < Z.of_nat n -> converged_at A P g (at_ + k) /\ explained A P Q m o keys s' g (at_ + k) CONVERGED) /\
    (ok = false -> exists k why, 0 <= k < Z.of_nat n /\ stopped_at A P g (at_ + k) why /\ explained A P Q m o keys s' g (at_ + k) why /\
       (forall i, 0 <= i < k -> converged_at A P g (at_ + i) /\ explained A P Q m o keys s' g (at_ + i) CONVERGED) /\
       forall i, k < i < Z.of_nat n -> untouched A g (at_ + i)))).
Proof.
  intros A f d j P vars scl eqs l given sort passes nb at_ bt n keys s norm prev s' ok dg NV NE Hs H Q.
  unfold run_d in H. unfold run. destruct eqs as [|q eqs].
  { inversion H; subst. split; [reflexivity|]. left. split; [now left|]. repeat split. }
  assert (Hne : q :: eqs <> []) by discriminate. set (D := q :: eqs) in *. clearbody D. clear q eqs.
  destruct ((bt <? 0) || (at_ <? 0)) eqn:EB.
  { inversion H; subst. split; [reflexivity|]. left. split; [right; lia|]. repeat split. }
  assert (Zero : forall p, untouched A (fresh A nb) p) by (intros p; split; reflexivity).
  destruct (link_model vars scl D) as [[m0|]| |] eqn:E1; try discriminate; cbn [rbind] in *.
  2:{ inversion H; subst. split; [reflexivity|]. right. split; [exact Hne|]. split; [lia|]. split; [lia|]. exists (fresh A nb).
      split; [reflexivity|]. split; [reflexivity|]. split; [intros p _; apply Zero|]. left. repeat split. }
  destruct (exchanges vars (map fst D) m0 l) as [[m|]| |] eqn:E2; try discriminate; cbn [rbind] in *.
  2:{ inversion H; subst. split; [reflexivity|]. right. split; [exact Hne|]. split; [lia|]. split; [lia|]. exists (fresh A nb).
      split; [reflexivity|]. split; [reflexivity|]. split; [intros p _; apply Zero|]. left. repeat split. }
  destruct (order m (map fst D) given sort passes) as [o| |] eqn:E3; try discriminate; cbn [rbind] in *.
  destruct (periods_d _ _ _ _ _ _ _ _ _ _ _ _ _ _) as [[s1 ok1] g] eqn:EP. inversion H; subst. clear H. split.
  { unfold simulate. rewrite <- (periods_d_values A _ P m o nb _ keys n at_ s _ norm (fresh A nb)). rewrite EP. reflexivity. }
  right. split; [exact Hne|]. split; [lia|]. split; [lia|]. exists g. split; [reflexivity|].
  destruct (periods_d_off _ _ _ _ _ _ _ _ _ _ _ _ _ _ _ _ _ EP) as [NB OFF]. split; [exact NB|].
  split; [intros p Hp; destruct (OFF p Hp) as [O1 O2]; split; [rewrite O1|rewrite O2]; reflexivity|].
  right. exists m, o. split; [split; [exact NV|split; [exact NE|eauto]]|]. split; [split; eauto|].
  destruct (periods_d_chain _ _ _ _ _ _ _ _ _ _ _ _ _ _ _ _ _ EP) as [I1 I2]; [intros p _; apply Zero|]. split; [exact I1|exact I2].
Qed.
Print Assumptions C104_run.

(** * Saving and reading *)

Lemma variable_list_name n : accepted VARIABLES n -> to_upper n = n /\ trim n = n /\ list_name n.
Proof.
  intros H. assert (T : trim n = n).
  { pose proof H as (c & r & -> & _ & Hc & Hr). apply (trimmed_unique (c :: r)); [apply trim_trimmed|]. exists [], []. rewrite app_nil_r.
    assert (K : forall x, In x (c :: r) -> ~ blank x).
    { intros x Hx B. apply blank_iff in B. unfold isspace in B. destruct Hx as [<-|Hx]; [cbn [letter_of] in Hc; lia|]. rewrite Forall_forall in Hr. specialize (Hr x Hx). cbn [letter_of] in Hr. lia. }
    repeat split; try constructor; intros x u E; apply K; rewrite E; [left; reflexivity|apply in_or_app; right; left; reflexivity]. }
  pose proof (accepted_key VARIABLES n H) as K. unfold to_key in K. cbn [mode_of] in K. rewrite T in K.
  assert (U : to_upper n = n) by exact K. split; [exact U|]. split; [exact T|]. unfold list_name. rewrite U. apply regex_iff. exact H.
Qed.
Lemma upper_sqz n : accepted VARIABLES n -> sqz (map upper_char n) = n.
Proof.
  intros H. destruct (variable_list_name n H) as [U _]. destruct H as (c & r & -> & _ & Hc & Hr).
  assert (K : forall x, In x (c :: r) -> 32 < code x < 128).
  { intros x [<-|Hx]; [cbn [letter_of] in Hc; lia|]. rewrite Forall_forall in Hr. specialize (Hr x Hx). cbn [letter_of] in Hr. lia. }
  assert (M : map upper_char (c :: r) = c :: r).
  { rewrite <- U at 2. unfold to_upper. apply map_ext_in. intros x Hx. apply L_Report2.upper7. specialize (K x Hx). lia. }
  rewrite M. unfold sqz. revert K. generalize (c :: r). induction l as [|x l IH]; intros K; [reflexivity|]. cbn [filter].
  replace (negb (is 32 x)) with true by (unfold is; specialize (K x (or_introl eq_refl)); lia). f_equal. apply IH. intros y Hy. apply K. now right.
Qed.
Lemma create_empty A formula nb n vars : accepted VARIABLES n -> exists x, find n (CreateEmptyVar A formula nb n vars) = Some x /\
  forall k, k <> n -> find k (CreateEmptyVar A formula nb n vars) = find k vars.
Proof.
  intros H. destruct (variable_list_name n H) as (U & T & L). unfold CreateEmptyVar. rewrite (upper_sqz n H). unfold DataCalcVar.
  change (S2L " 1/0") with (BLANK :: S2L "1/0"). rewrite (get_arg0_name n (S2L "1/0") L) by reflexivity.
  assert (K : to_key UPPER_CASE n = n) by (apply (accepted_key VARIABLES n H)). rewrite K.
  replace (strip (skipn (S (length n)) (n ++ BLANK :: S2L "1/0"))) with (S2L "1/0").
  2:{ rewrite skipn_app, skipn_all2 by lia. replace (S (length n) - length n)%nat with 1%nat by lia. reflexivity. }
  assert (G : exists v1 y, (match find n vars with Some _ => Some vars | None => set_in VARIABLES vars n (repeat (na A) (Z.to_nat nb)) end) = Some v1 /\
    find n v1 = Some y /\ forall k, k <> n -> find k v1 = find k vars).
  { destruct (find n vars) as [y|] eqn:F; [exists vars, y; repeat split; exact F|]. rewrite (set_accepted VARIABLES vars n _ H).
    eexists _, _. split; [reflexivity|]. split; [apply find_put_eq|]. intros k Nk. apply find_put_neq. exact Nk. }
  destruct G as (v1 & y & -> & F1 & F2). cbn [S2L list_ascii_of_string]. destruct (formula _ v1) as [x|]; cbn [snd].
  - exists x. split; [apply find_put_eq|]. intros k Nk. rewrite find_put_neq by exact Nk. apply F2, Nk.
  - exists y. split; [exact F1|exact F2].
Qed.

(** After a simulation on the sample of the workspace, of [nb] periods: the two commands, given an accepted name of a
    variable, set this variable to the numbers of passes (to the norms), period by period, whether it existed or
    not, and change no other variable; whatever the formula used to create it gives. *)
Theorem C104_saved : forall A formula nb n (g : diag A) vars, accepted VARIABLES n -> d_nb g = nb ->
  (exists vars', SaveNIters A formula nb n (Some g) vars = Ok (0, vars') /\
     find n vars' = Some (map (fun t => ofZ A (d_iters g (Z.of_nat t))) (seq 0 (Z.to_nat nb))) /\ forall k, k <> n -> find k vars' = find k vars) /\
  (exists vars', SaveNorms A formula nb n (Some g) vars = Ok (0, vars') /\
     find n vars' = Some (map (fun t => d_norms g (Z.of_nat t)) (seq 0 (Z.to_nat nb))) /\ forall k, k <> n -> find k vars' = find k vars).
Proof.
  intros A formula nb n g vars H NB. destruct (create_empty A formula nb n vars H) as (x & F1 & F2). destruct (variable_list_name n H) as (U & T & _).
  assert (G : forall h : Z -> F A, exists vars', CreateVarFromVec A formula nb n (Some (d_nb g, h)) vars = Ok (0, vars') /\
     find n vars' = Some (map (fun t => h (Z.of_nat t)) (seq 0 (Z.to_nat nb))) /\ forall k, k <> n -> find k vars' = find k vars).
  { intros h. unfold CreateVarFromVec. destruct H as (c & r & E & Ln & _). replace (1024 <=? Z.of_nat (length n)) with false by lia. rewrite T, U, F1.
    replace (d_nb g <? nb) with false by lia. eexists. split; [reflexivity|]. split; [apply find_put_eq|]. intros k Nk. rewrite find_put_neq by exact Nk. apply F2, Nk. }
  split; apply G.
Qed.
Print Assumptions C104_saved.

(** In the sample of the workspace, the two functions give, at a period of this sample, the diagnostics at its position;
    out of it, and before any simulation, the empty text. A negative norm is not shown. *)
Theorem C104_read : forall A (g : diag A) ws p t, s_nb ws = d_nb g -> year p <> 0 ->
  difference p (s_start ws) = Ok t -> difference p (s_end ws) = Ok (t - (s_nb ws - 1)) ->
  (0 <= t < s_nb ws -> SimNIter (Some g) ws p = Ok (Some (d_iters g t)) /\
     SimNorm (Some g) ws p = Ok (if lt A (d_norms g t) (ofZ A 0) then None else Some (d_norms g t))) /\
  (t < 0 \/ s_nb ws <= t -> SimNIter (Some g) ws p = Ok None /\ SimNorm (Some g) ws p = Ok None) /\
  SimNIter (None : option (diag A)) ws p = Ok None.
Proof.
  intros A g ws p t NB Y D1 D2.
  assert (P1 : position ws p = Ok (if (0 <=? t) && (t <? s_nb ws) then t else -1)).
  { unfold position. replace (year p =? 0) with false by lia. rewrite D1. cbn [rbind]. destruct (t <? 0) eqn:E0; [replace (0 <=? t) with false by lia; reflexivity|].
    rewrite D2. cbn [rbind]. replace (0 <=? t) with true by lia. cbn [andb]. destruct (0 <? t - (s_nb ws - 1)) eqn:E1; [replace (t <? s_nb ws) with false by lia; reflexivity|].
    replace (t <? s_nb ws) with true by lia. reflexivity. }
  unfold SimNIter, SimNorm, at_position. rewrite P1. cbn [rbind]. split; [|split].
  - intros Ht. replace ((0 <=? t) && (t <? s_nb ws)) with true by lia. replace (t <? 0) with false by lia. replace (t <? d_nb g) with true by lia. cbn [rbind]. split; reflexivity.
  - intros Ht. replace ((0 <=? t) && (t <? s_nb ws)) with false by lia. split; reflexivity.
  - destruct ((0 <=? t) && (t <? s_nb ws)); [|reflexivity]. destruct (t <? 0); reflexivity.
Qed.
Print Assumptions C104_read.

(** The model of C40 (Z := W, X := (Y + Z) / 2, Y := X / 2, T := X + Y) over the positions 1 and 2 of 4 periods, with
    either sign of the relaxation; that of C51 stops at the maximum of 5 passes, and the next period has zeros. *)
Definition C104_dg (f : Z -> values exactly -> Z -> Qc) (P : params exactly) vars eqs s : option (bool * diag exactly) :=
  match run_d exactly f (fun _ => false) (q_ofZ 0) P vars [] eqs [] [] SORT_BOTH 2 4 1 1 2 (fun _ _ => false) s (q_ofZ 0) None with
  | Ok (_, ok, Some g) => Some (ok, g) | _ => None end.
Definition seen (g : option (bool * diag exactly)) : option (bool * Z * list Z * list Q) :=
  match g with Some (ok, g) => Some (ok, d_nb g, map (d_iters g) [0; 1; 2; 3], map (fun t => this (d_norms g t : Qc)) [0; 1; 2; 3]) | None => None end.
Example C104_ex : seen (C104_dg C40_f (C40_P 1) C40_vars C40_eqs C40_s) = Some (true, 4, [0; 2; 1; 0], [0; 0; 0; 0]%Q) /\
  seen (C104_dg C40_f (C40_P (-1)) C40_vars C40_eqs C40_s) = Some (true, 4, [0; 11; 1; 0], [0; 1 # 2047; 1 # 2047; 0]%Q) /\
  seen (C104_dg C51_f (C51_P 1) C51_vars C51_eqs (fun _ _ => q_ofZ 1)) = Some (false, 4, [0; 5; 0; 0], [0; 2; 0; 0]%Q).
Proof. split; [|split]; vm_compute; reflexivity. Qed.
(** The workspace of the other examples: 4 periods from 2000 on. *)
Definition year_ (y : Z) : period := M_Time.mkP y 1 (chr 89).
Definition smp (a b : Z) : sample := mkS (year_ a) (year_ b) (b - a + 1).
Definition missing (nb : nat) : str -> smap (list dbl) -> option (list dbl) := fun _ _ => Some (repeat d_na nb).
Definition C104_g : diag double := @mkD double 4 (fun t => if t =? 1 then 11 else if t =? 2 then 3 else 0) (fun t => if t =? 1 then d_dec 5 4 else d_ofZ 0).
Example C104_saved_ex : accepted VARIABLES (S2L "NIT") /\
  SaveNIters double (missing 4) 4 (S2L "NIT") (Some C104_g) [(S2L "A", repeat (d_ofZ 7) 4)] =
    Ok (0, [(S2L "A", repeat (d_ofZ 7) 4); (S2L "NIT", map d_ofZ [0; 11; 3; 0])]).
Proof.
  split; [|vm_compute; reflexivity]. exists (chr 78), (S2L "IT"). split; [reflexivity|]. split; [cbn; lia|]. split; [left; cbn; lia|]. constructor; [left; cbn; lia|]. constructor; [left; cbn; lia|constructor].
Qed.
Example C104_read_ex : SimNIter (Some C104_g) (smp 2000 2003) (year_ 2001) = Ok (Some 11) /\ SimNIter (Some C104_g) (smp 2000 2003) (year_ 2004) = Ok None /\
  SimNorm (Some C104_g) (smp 2000 2003) (year_ 2001) = Ok (Some (d_dec 5 4)).
Proof. split; [|split]; vm_compute; reflexivity. Qed.

(** A norm not above the threshold does not say that the period converged: when a variable becomes unavailable in the
    first pass, the norm of the period is zero. *)
Theorem C104_norm_refuted : exists f (P : params exactly) vars eqs s s' g, NoDup vars /\ NoDup (map fst eqs) /\
  run_d exactly f (fun _ => false) (q_ofZ 0) P vars [] eqs [] [] SORT_BOTH 2 4 1 1 2 (fun _ _ => false) s (q_ofZ 0) None = Ok (s', false, Some g) /\
  d_iters g 1 = 1 /\ d_norms g 1 = q_ofZ 0 /\ (q_ofZ 0 < eps P)%Qc.
Proof.
  set (f := fun e (s : values exactly) t => if e =? 0 then q_na else s 0 t).
  set (r := run_d exactly f (fun _ => false) (q_ofZ 0) (C51_P 1) C51_vars [] C51_eqs [] [] SORT_BOTH 2 4 1 1 2 (fun _ _ => false) (fun _ _ => q_ofZ 1) (q_ofZ 0) None).
  assert (G : (match r with Ok (_, false, Some g) => Some (d_iters g 1, this (d_norms g 1 : Qc)) | _ => None end) = Some (1, 0%Q)) by (vm_compute; reflexivity).
  destruct r as [[[s' [|]] [g|]]| |] eqn:E; try discriminate G.
  exists f, (C51_P 1), C51_vars, C51_eqs, (fun _ _ => q_ofZ 1), s', g.
  split; [repeat (constructor; [cbn; intuition discriminate|]); constructor|]. split; [repeat (constructor; [cbn; intuition discriminate|]); constructor|].
  split; [exact E|]. injection G as G1 G2. split; [exact G1|]. split; [apply Qc_is_canon; rewrite G2; reflexivity|reflexivity].
Qed.
Print Assumptions C104_norm_refuted.

(** The diagnostics are kept by position, without their sample. When the sample of the workspace changes after the
    simulation, the number of passes of 2000 is given for 2001; in a longer sample, the commands and the
    functions read after the end of the arrays. *)
Theorem C104_sample_refuted : exists (g : diag double) p t1 t2,
  SimNIter (Some g) (smp 2000 2003) p = Ok (Some t1) /\ SimNIter (Some g) (smp 1999 2002) p = Ok (Some t2) /\ t1 <> t2 /\
  SimNIter (Some g) (smp 2000 2003) (year_ 2001) = Ok (Some t2) /\
  SimNIter (Some g) (smp 2000 2004) (year_ 2004) = UB /\ SaveNIters double (missing 5) 5 (S2L "NIT") (Some g) [] = UB.
Proof. exists C104_g, (year_ 2000), 0, 11. repeat split; try (vm_compute; reflexivity). discriminate. Qed.
Print Assumptions C104_sample_refuted.

(** Before any simulation, the values of an existing variable are lost, and the command succeeds. *)
Theorem C104_no_simulation_refuted : exists n vars vars', accepted VARIABLES n /\ find n vars = Some (repeat (d_ofZ 7) 4) /\
  SaveNIters double (missing 4) 4 n None vars = Ok (0, vars') /\ find n vars' = Some (repeat d_na 4).
Proof.
  exists (S2L "NIT"), [(S2L "NIT", repeat (d_ofZ 7) 4)], [(S2L "NIT", repeat d_na 4)]. split; [apply C104_saved_ex|]. repeat split; vm_compute; reflexivity.
Qed.
Print Assumptions C104_no_simulation_refuted.

(** The name is not checked before the variable is created: with a blank inside, or more than 20 characters, the command
    fails after the loss of the values of another variable (the name without its blanks, its first 20 characters). *)
Theorem C104_name_refuted : exists v long,
  SaveNIters double (missing 4) 4 (S2L "A B") (Some C104_g) [(S2L "AB", repeat (d_ofZ 7) 4)] = Ok (-1, [(S2L "AB", repeat d_na 4)]) /\
  (20 < length long)%nat /\ v = firstn 20 long /\
  SaveNIters double (missing 4) 4 long (Some C104_g) [(v, repeat (d_ofZ 7) 4)] = Ok (-1, [(v, repeat d_na 4)]).
Proof. exists (S2L "ABCDEFGHIJKLMNOPQRST"), (S2L "ABCDEFGHIJKLMNOPQRSTU"). repeat split; vm_compute; reflexivity. Qed.
Print Assumptions C104_name_refuted.
