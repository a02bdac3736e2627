(** Laws between the cells of a table printed on a generalised sample. *)
From Coq Require Import ZArith Ascii String List Bool Lia QArith Qcanon Field Reals Lra.
From Verif Require Import M_Base M_Time M_Names M_Lex M_Compile M_Bytes M_Exec M_Exact M_Double M_Real M_Ascii M_Gsample M_Calc
  S_Time S_Gsample S_Calc L_Time L_Calc L_Freq6 L_Spline2 T_Calc.
Import ListNotations.
Open Scope Z_scope.

(** * C82: laws between the operations *)

(** Two periods and an operation, on one file; a file operation on two files. *)
Definition on_one (o : gop) (p q : period) (f : Z) : col := mkC o p q (Some NOP) f 0.
Definition on_both (o : gop) (p q : period) (o2 : gop) (f g : Z) : col := mkC o p q (Some o2) f g.
(** A formula, its divisor, and files where they can be calculated in two periods of one periodicity. *)
Record at_work (A : arith) (rb : str -> list Z) (files : list (option (env A))) (text : str) (div : option str) (x : clec) (d : option clec)
  (p q : period) (f : Z) : Prop := mkAW {
  aw_x : compiled rb text x; aw_d : div_ok (compiled rb) div d;
  aw_p : valid_period p; aw_q : valid_period q; aw_per : per q = per p; aw_f : serves A rb files p text div f }.
Arguments mkAW {A rb files text div x d p q f}.

Lemma place_swap p q : per q = per p -> place q p = - place p q.
Proof. intros E. unfold place. rewrite E. lia. Qed.
Lemma distance_swap p q : per q = per p -> distance q p = distance p q.
Proof. intros E. unfold distance. rewrite (place_swap p q E). lia. Qed.
Lemma between_swap p q : valid_period p -> valid_period q -> per q = per p -> between q p = between p q.
Proof.
  intros Vp Vq E. unfold between. rewrite (distance_swap p q E). unfold before. rewrite (place_swap p q E).
  assert (C : place p q < 0 \/ place p q = 0 \/ 0 < place p q) by lia. destruct C as [C|[C|C]].
  - replace (- place p q <? 0) with false by lia. replace (place p q <? 0) with true by lia. reflexivity.
  - assert (X : q = p) by (rewrite <- (further_place p q Vp Vq E), C, <- (place_self p); apply further_place; auto). subst q. rewrite C. reflexivity.
  - replace (- place p q <? 0) with true by lia. replace (place p q <? 0) with false by lia. reflexivity.
Qed.

Section Laws.
Context (A : arith) (rb : str -> list Z) (files : list (option (env A))) (text : str) (div : option str) (x : clec) (d : option clec).
Context (N1 : num A (ofZ A 1) = true) (Z1 : M_Exec.eq A (ofZ A 1) (ofZ A 0) = false).
Notation W := (cell_on A rb files text div).
Lemma calc_one o p q f : o <> NOP -> at_work A rb files text div x d p q f ->
  COL_calc A files (on_one o p q f) x d = Ok (Some (shown A (na A) (on_two A (W f) o p q))).
Proof.
  intros No [Cx Cd Vp Vq Ep Sf]. rewrite (C81_value A rb files _ text div x d N1 Z1 Cx Cd).
  - cbn. destruct o; congruence || reflexivity.
  - unfold proper. cbn. split; [exact Vp|]. destruct o; try congruence; auto.
  - unfold served. cbn. split; [exact Sf|reflexivity].
Qed.
Lemma calc_both o p q o2 f g : o <> NOP -> match o2 with ADD | DIFF | GRT | MEAN | BASE => True | _ => False end ->
  at_work A rb files text div x d p q f -> at_work A rb files text div x d p q g ->
  COL_calc A files (on_both o p q o2 f g) x d = Ok (Some (shown A (na A) (col_value A W (view (on_both o p q o2 f g))))).
Proof.
  intros No H2 [Cx Cd Vp Vq Ep Sf] [_ _ _ _ _ Sg]. rewrite (C81_value A rb files _ text div x d N1 Z1 Cx Cd).
  - reflexivity.
  - unfold proper. cbn. split; [exact Vp|]. destruct o; try congruence; auto.
  - unfold served. cbn. destruct o2; try contradiction; split; assumption.
Qed.
(** The sum and the mean do not depend on the order of the periods, in any arithmetic. *)
Theorem C82_order : forall o p q f, o = ADD \/ o = MEAN -> at_work A rb files text div x d p q f -> at_work A rb files text div x d q p f ->
  COL_calc A files (on_one o q p f) x d = COL_calc A files (on_one o p q f) x d.
Proof.
  intros o p q f Ho H H'. assert (o <> NOP) by (destruct Ho; subst; discriminate). rewrite !calc_one by assumption.
  destruct H as [_ _ Vp Vq E _]. unfold on_two. rewrite (between_swap p q Vp Vq E), (distance_swap p q E). destruct Ho; subst; reflexivity.
Qed.
End Laws.
Print Assumptions C82_order.

Lemma q_one_num : num exactly (ofZ exactly 1) = true. Proof. reflexivity. Qed.
Lemma q_one_zero : M_Exec.eq exactly (ofZ exactly 1) (ofZ exactly 0) = false. Proof. vm_compute. reflexivity. Qed.
Lemma q_eqb a b : M_Exec.eq exactly a b = true <-> a = b.
Proof. cbn. destruct (Qc_eq_dec a b); split; congruence. Qed.
Ltac inQc := repeat match goal with v : ?T |- _ => match T with Qc => fail 1 | _ => change Qc in v end end; match goal with |- @Logic.eq _ ?a ?b => change (@Logic.eq Qc a b) end.

Section Exact.
Context (rb : str -> list Z) (files : list (option (env exactly))) (text : str) (div : option str) (x : clec) (d : option clec).
Notation calc c := (COL_calc exactly files c x d).
Notation ready := (at_work exactly rb files text div x d).
Notation na := (na exactly).
(** A base index is the growth rate plus 100. *)
Theorem C82_index : forall p q f, ready p q f ->
  exists b g, calc (on_one BASE p q f) = Ok (Some b) /\ calc (on_one GRT p q f) = Ok (Some g)
  /\ (b = na /\ g = na \/ b = Qcplus g (q_ofZ 100)).
Proof.
  intros p q f H. rewrite !(calc_one exactly rb files text div x d q_one_num q_one_zero) by (discriminate || assumption).
  eexists. eexists. split; [reflexivity|]. split; [reflexivity|]. cbn [on_two]. destruct (quotient _ _ _) as [m|]; cbn; [right|left; auto]. 
  change (q_ofZ 1) with 1%Qc. inQc; ring.
Qed.
(** The mean over the n + 1 periods is the sum divided by n + 1. *)
Theorem C82_mean : forall p q f, ready p q f ->
  exists s m, calc (on_one ADD p q f) = Ok (Some s) /\ calc (on_one MEAN p q f) = Ok (Some m)
  /\ (s = na /\ m = na \/ s = Qcmult m (q_ofZ (distance p q + 1))).
Proof.
  intros p q f H. rewrite !(calc_one exactly rb files text div x d q_one_num q_one_zero) by (discriminate || assumption).
  eexists. eexists. split; [reflexivity|]. split; [reflexivity|]. cbn [on_two]. destruct (sum_of _ _ _ _) as [m|]; cbn; [right|left; auto].
  inQc. field. apply qz_nz. unfold distance. lia.
Qed.
(** The mean difference, times the number of periods, is the difference; both change sign with the order of the periods. *)
Theorem C82_difference : forall p q f, ready p q f ->
  exists e m, calc (on_one DIFF p q f) = Ok (Some e) /\ calc (on_one MDIFF p q f) = Ok (Some m)
  /\ (e = na /\ m = na \/ e = Qcmult m (q_ofZ (distance p q))).
Proof.
  intros p q f H. rewrite !(calc_one exactly rb files text div x d q_one_num q_one_zero) by (discriminate || assumption).
  eexists. eexists. split; [reflexivity|]. split; [reflexivity|]. cbn [on_two].
  assert (Z0 : distance p q = 0 -> q = p).
  { destruct H as [_ _ Vp Vq E _]. intros Z. rewrite <- (further_place p q Vp Vq E). replace (place p q) with (place p p) by (rewrite place_self; unfold distance in Z; lia).
    apply further_place; auto. }
  destruct (cell_on _ _ _ _ _ _ p) as [a|] eqn:Ea, (cell_on _ _ _ _ _ _ q) as [b|] eqn:Eb; cbn; auto. right.
  destruct (Z.eqb_spec (distance p q) 0) as [Z|Z].
  - rewrite (Z0 Z) in Eb. assert (a = b) by congruence. subst. rewrite Z. change (q_ofZ 0) with 0%Qc. inQc; ring.
  - inQc. field. apply qz_nz. exact Z.
Qed.
Theorem C82_opposite : forall o p q f, o = DIFF \/ o = MDIFF -> ready p q f -> ready q p f ->
  exists e m, calc (on_one o p q f) = Ok (Some e) /\ calc (on_one o q p f) = Ok (Some m)
  /\ (e = na /\ m = na \/ e = Qcopp m).
Proof.
  intros o p q f Ho H H'. assert (o <> NOP) by (destruct Ho; subst; discriminate).
  rewrite !(calc_one exactly rb files text div x d q_one_num q_one_zero) by assumption.
  eexists. eexists. split; [reflexivity|]. split; [reflexivity|]. unfold on_two. destruct H as [_ _ _ _ E _]. rewrite (distance_swap p q E).
  destruct Ho; subst o; destruct (cell_on _ _ _ _ _ _ p) as [a|] eqn:Ea, (cell_on _ _ _ _ _ _ q) as [b|] eqn:Eb; cbn; auto; right.
  - inQc; ring.
  - destruct (Z.eqb_spec (distance p q) 0) as [Z|Z]; [vm_compute; reflexivity|]. inQc. field. apply qz_nz. exact Z.
Qed.
(** Index numbers chain: p on q, times q on r, over 100, is p on r. *)
Theorem C82_chain : forall p q r f vp vq vr, ready p q f -> ready q r f -> ready p r f ->
  cell_on exactly rb files text div f p = Some vp -> cell_on exactly rb files text div f q = Some vq ->
  cell_on exactly rb files text div f r = Some vr -> vq <> q_ofZ 0 -> vr <> q_ofZ 0 ->
  exists a b c, calc (on_one BASE p q f) = Ok (Some a) /\ calc (on_one BASE q r f) = Ok (Some b) /\ calc (on_one BASE p r f) = Ok (Some c)
  /\ Qcdiv (Qcmult a b) (q_ofZ 100) = c.
Proof.
  intros p q r f vp vq vr H1 H2 H3 Ep Eq Er Nq Nr. rewrite !(calc_one exactly rb files text div x d q_one_num q_one_zero) by (discriminate || assumption).
  eexists. eexists. eexists. split; [reflexivity|]. split; [reflexivity|]. split; [reflexivity|]. cbn [on_two]. rewrite Ep, Eq, Er.
  unfold quotient. cbn [M_Exec.eq exactly ofZ].
  destruct (Qc_eq_dec vq (q_ofZ 0)) as [?|N1]; [contradiction|]. destruct (Qc_eq_dec vr (q_ofZ 0)) as [?|N2]; [contradiction|]. cbn.
  inQc. field. repeat split; first [exact N1|exact N2|apply qz_nz; lia].
Qed.
(** Two files: an index is a growth rate plus 100, the mean is half of the sum. *)
Theorem C82_files : forall o p q f g, o <> NOP -> ready p q f -> ready p q g ->
  exists b g' s m, calc (on_both o p q BASE f g) = Ok (Some b) /\ calc (on_both o p q GRT f g) = Ok (Some g')
  /\ calc (on_both o p q ADD f g) = Ok (Some s) /\ calc (on_both o p q MEAN f g) = Ok (Some m)
  /\ (b = na /\ g' = na \/ b = Qcplus g' (q_ofZ 100)) /\ (s = na /\ m = na \/ s = Qcmult m (q_ofZ 2)).
Proof.
  intros o p q f g No Hf Hg. rewrite !(calc_both exactly rb files text div x d q_one_num q_one_zero) by (assumption || exact I).
  eexists. eexists. eexists. eexists. split; [reflexivity|]. split; [reflexivity|]. split; [reflexivity|]. split; [reflexivity|].
  cbn [col_value view v_files opf fnb0 fnb1 on_both v_op v_0 v_1 opy per0 per1].
  set (u := on_two _ _ _ _ _). set (v := on_two _ _ _ _ _). clearbody u v. split.
  - destruct (quotient _ _ _) as [m|]; cbn; [right|left; auto]. change (q_ofZ 1) with 1%Qc. inQc; ring.
  - destruct u as [a|], v as [b|]; cbn; auto. right. change (q_ofZ 1) with 1%Qc. inQc. field. apply qz_nz. lia.
Qed.
End Exact.
Print Assumptions C82_index.
Print Assumptions C82_mean.
Print Assumptions C82_difference.
Print Assumptions C82_opposite.
Print Assumptions C82_chain.
Print Assumptions C82_files.

(** A case: the values of C81_ex, in exact arithmetic. *)
Definition q_env (l : list Z) : env exactly :=
  Build_env exactly (fun n => if str_eqb n (S2L "A") then Some (fun i => nth (Z.to_nat i) (map q_ofZ l) q_na) else None) (fun _ => None)
    (mkS (mkP 2000 1 "Y") (mkP 2003 1 "Y") 4).
Definition q_files : list (option (env exactly)) := [Some (q_env [10; 20; 30; 60]); Some (q_env [1; 2; 3; 4])].
Lemma q_ready y z f : f = 1 \/ f = 2 -> at_work exactly c_reals q_files (S2L "A") None (clec_of (S2L "A")) None (mkP y 1 "Y") (mkP z 1 "Y") f.
Proof.
  intros Hf. assert (V : forall y, valid_period (mkP y 1 "Y")) by (intros u; exists 1; split; [constructor|cbn; lia]).
  constructor; auto; [apply c_compiled; cbn; auto|exact I|].
  destruct Hf as [-> | ->]; (eexists; split; [reflexivity|split; [reflexivity|split; [|exact I]]]);
    intros t; eapply c_name; try reflexivity; cbn; auto.
Qed.
Definition gives (c : col) (z : Z) : Prop := exists v, COL_calc exactly q_files c (clec_of (S2L "A")) None = Ok (Some v) /\ v = q_ofZ z.
Example C82_ex : gives (on_one BASE (mkP 2003 1 "Y") (mkP 2000 1 "Y") 1) 600 /\ gives (on_one GRT (mkP 2003 1 "Y") (mkP 2000 1 "Y") 1) 500
  /\ gives (on_one ADD (mkP 2000 1 "Y") (mkP 2003 1 "Y") 1) 120 /\ gives (on_one MEAN (mkP 2003 1 "Y") (mkP 2000 1 "Y") 1) 30
  /\ gives (on_both DIFF (mkP 2002 1 "Y") (mkP 2000 1 "Y") GRT 1 2) 900 /\ gives (on_both DIFF (mkP 2002 1 "Y") (mkP 2000 1 "Y") BASE 1 2) 1000.
Proof. repeat split; (eexists; split; [vm_compute; reflexivity|apply Qc_is_canon; vm_compute; reflexivity]). Qed.

Section Growth.
Open Scope R_scope.
Lemma r_one_num : num reals (ofZ reals 1) = true.
Proof. cbn. unfold r_num. destruct (Rle_dec _ _) as [|N]; [reflexivity|]. exfalso. apply N. assert (0 < 10 ^ 37) by (apply pow_lt; lra). lra. Qed.
Lemma r_one_zero : M_Exec.eq reals (ofZ reals 1) (ofZ reals 0) = false.
Proof. cbn. unfold r_eq. destruct (Req_EM_T 1 0); [lra|reflexivity]. Qed.
(** The mean growth rate: a growth at that rate in each of the n periods gives the ratio of the two values, on the real numbers,
    when the values have the same sign. *)
Theorem C82_mean_growth : forall rb files text div x d p q f a b, at_work reals rb files text div x d p q f ->
  cell_on reals rb files text div f p = Some a -> cell_on reals rb files text div f q = Some b -> b <> 0 -> 0 <= a / b -> (0 < distance p q)%Z ->
  exists g, COL_calc reals files (on_one MGRT p q f) x d = Ok (Some g) /\ (1 + g / 100) ^ Z.to_nat (distance p q) = a / b.
Proof.
  intros rb files text div x d p q f a b H Ea Eb Nb Pos Dist.
  rewrite (calc_one reals rb files text div x d r_one_num r_one_zero) by (discriminate || assumption).
  eexists. split; [reflexivity|]. unfold on_two. rewrite Ea, Eb. set (n := distance p q) in *. clearbody n.
  replace (n =? 0)%Z with false by (symmetry; apply Z.eqb_neq; lia).
  unfold quotient. cbn [M_Exec.eq reals ofZ]. unfold r_eq. destruct (Req_EM_T b 0) as [?|_]; [contradiction|].
  cbn [option_map shown dvd reals]. set (m := a / b) in *. clearbody m. unfold growth. cbn [lt reals ofZ]. unfold r_lt.
  destruct (Rlt_dec m 0); [lra|]. cbn [mul sub dvd pow ofZ reals].
  assert (Hn : IZR n <> 0) by (apply not_0_IZR; lia).
  replace (1 + 1 * 100 * (r_pow m (1 / IZR n) - 1) / 100) with (r_pow m (1 / IZR n)) by field.
  unfold r_pow. destruct (Rlt_dec 0 m) as [P|P].
  - rewrite <- Rpower_pow by apply exp_pos. rewrite Rpower_mult. rewrite INR_IZR_INZ, Z2Nat.id by lia.
    replace (1 / IZR n * IZR n) with 1 by (field; exact Hn). apply Rpower_1. exact P.
  - assert (M0 : m = 0) by lra. rewrite M0. destruct (Req_EM_T 0 0); [|contradiction].
    destruct (Req_EM_T (1 / IZR n) 0) as [E|_].
    + exfalso. assert (IZR n * (1 / IZR n) = 1) by (field; exact Hn). rewrite E in *. lra.
    + apply pow_ne_zero. lia.
Qed.
(** Over one period the mean growth rate should be the growth rate: it is not when the values have different signs. *)
Definition r_env : env reals := Build_env reals (fun n => if str_eqb n (S2L "A") then Some (fun i => if (i =? 0)%Z then 1 else -2) else None) (fun _ => None)
    (mkS (mkP 2000 1 "Y") (mkP 2003 1 "Y") 4).
Lemma r_small z : (-10 <= z)%R -> r_num z = true.
Proof. intros H. unfold r_num. destruct (Rle_dec _ _) as [|N]; [reflexivity|]. exfalso. apply N. assert (1 <= 10 ^ 36) by (apply pow_R1_Rle; lra).
  replace (10 ^ 37) with (10 * 10 ^ 36) by (cbn; ring). lra. Qed.
Lemma r_ready : at_work reals c_reals [Some r_env] (S2L "A") None (clec_of (S2L "A")) None (mkP 2001 1 "Y") (mkP 2000 1 "Y") 1.
Proof.
  assert (V : forall y, valid_period (mkP y 1 "Y")) by (intros u; exists 1%Z; split; [constructor|cbn; lia]).
  constructor; auto; [apply c_compiled; cbn; auto|exact I|].
  eexists; split; [reflexivity|split; [reflexivity|split; [|exact I]]]. intros t; eapply c_name; try reflexivity; cbn; auto.
Qed.
Lemma eval_A A va sc (f : Z -> F A) t : va (S2L "A") = Some f -> t = 0%Z \/ t = 1%Z ->
  evaluate A (Build_env A va sc (mkS (mkP 2000 1 "Y") (mkP 2003 1 "Y") 4)) c_reals (S2L "A") t = Ok (f t).
Proof. intros H [-> | ->]; vm_compute in H |- *; rewrite H; reflexivity. Qed.
Lemma r_cell y v : (y = 2000 /\ v = 1 \/ y = 2001 /\ v = -2)%Z -> cell_on reals c_reals [Some r_env] (S2L "A") None 1 (mkP y 1 "Y") = Some (IZR v / 1).
Proof.
  intros H. unfold cell_on, worth, of_formula. change (file_of reals [Some r_env] 1) with (Some r_env). cbv iota beta.
  set (t := place (s_start (smp r_env)) (mkP y 1 "Y")).
  assert (Ev : evaluate reals r_env c_reals (S2L "A") t = Ok (IZR v)).
  { unfold r_env. rewrite (eval_A reals _ _ (fun i => if (i =? 0)%Z then 1 else -2)); [|reflexivity|destruct H as [(-> & _)|(-> & _)]; cbn; auto].
    destruct H as [(-> & ->)|(-> & ->)]; reflexivity. }
  fold t. rewrite Ev. cbn [num reals]. rewrite r_small; [reflexivity|]. destruct H as [(_ & ->)|(_ & ->)]; lra.
Qed.
Theorem C82_mean_growth_one_refuted :
  ~ (forall rb files text div x d p q f, at_work reals rb files text div x d p q f -> distance p q = 1%Z ->
     COL_calc reals files (on_one MGRT p q f) x d = COL_calc reals files (on_one GRT p q f) x d).
Proof.
  intros H. specialize (H _ _ _ _ _ _ _ _ _ r_ready eq_refl).
  rewrite !(calc_one reals _ _ _ _ _ _ r_one_num r_one_zero) in H by (discriminate || exact r_ready).
  unfold on_two in H. rewrite (r_cell 2001 (-2)), (r_cell 2000 1) in H by auto.
  change (distance _ _) with 1%Z in H. cbn [Z.eqb] in H.
  unfold quotient in H. cbn [M_Exec.eq reals ofZ] in H. unfold r_eq in H. destruct (Req_EM_T (1 / 1) 0) as [E|_]; [lra|].
  cbn [option_map shown] in H. unfold growth in H. cbn [lt mul sub dvd pow neg ofZ reals] in H. unfold r_lt in H.
  destruct (Rlt_dec _ 0) as [L|L] in H; [|lra]. unfold r_pow in H. destruct (Rlt_dec 0 _) as [L'|L'] in H; [|lra].
  replace (1 / 1) with 1 in H by lra. rewrite Rpower_1 in H by lra. injection H as H. lra.
Qed.
End Growth.
Print Assumptions C82_mean_growth.
Print Assumptions C82_mean_growth_one_refuted.
