(** C106. The parameters of a simulation. *)
From Coq Require Import ZArith Ascii String List Bool Lia ZifyBool.
From Verif Require Import M_Base M_Report M_Vars M_Order M_SimParms S_Report S_SimParms L_Codepage L_Report L_Report2 L_Report5.
Import ListNotations.
Open Scope Z_scope.

Lemma sep_mem c : mem B_SEPS c = true <-> separator c.
Proof.
  unfold mem, B_SEPS, separator, BLANK. cbn [existsb]. rewrite !orb_true_iff, !Ascii.eqb_eq. split.
  - intros [H|[H|[H|[H|H]]]]; try discriminate; subst; vm_compute; tauto.
  - intros [H|[H|[H|[H|[]]]]]; symmetry in H; apply code_chr_eq in H; try lia; subst; tauto.
Qed.
Lemma line_joined sep l : line_of sep l = joined sep l.
Proof. induction l as [|w [|v l] IH]; [reflexivity|reflexivity|]. cbn [line_of joined] in *. rewrite IH. reflexivity. Qed.
Lemma words_back sep l : separator sep -> Forall argument l -> vtoms B_SEPS (line_of sep l) = l.
Proof.
  intros S F. rewrite vtoms_tokens, line_joined. apply tokens_back; [apply sep_mem, S|]. apply forallb_forall. rewrite Forall_forall in F. intros w I.
  destruct (F w I) as [N W]. unfold clean. apply andb_true_iff. split; [destruct w; [congruence|reflexivity]|]. apply forallb_forall. rewrite Forall_forall in W.
  intros c Ic. apply negb_true_iff. destruct (mem B_SEPS c) eqn:E; [|reflexivity]. destruct (W c Ic). apply sep_mem, E.
Qed.
Lemma int_dec n : 0 <= n < 2 ^ 31 -> int_of (to_string n) = Ok n.
Proof. intros H. unfold int_of. rewrite <- (app_nil_r (to_string n)), atoi_dec; [reflexivity|exact H|]. exact I. Qed.
Definition sort_code (s : sort_option) : Z := match s with SORT_CONNEX => 0 | SORT_BOTH => 1 | SORT_NONE => 2 end.
Lemma sort_word_code w s : sort_word w s -> argpos (S2L "CTN") (if mem (S2L "bB") (first w) then chr 84 else first w) = sort_code s.
Proof. intros [w' (c & u & -> & I)|w' (c & u & -> & I)|w' (c & u & -> & I)]; cbn in I; repeat (destruct I as [<-|I]; [reflexivity|]); destruct I. Qed.
Lemma yes_no_code w b : yes_no w b -> argpos (S2L "NY") (first w) = Z.b2z b.
Proof. intros [w' (c & u & -> & I)|w' (c & u & -> & I)]; cbn in I; repeat (destruct I as [<-|I]; [reflexivity|]); destruct I. Qed.
Lemma sort_of_code s : sort_of (sort_code s) = s. Proof. destruct s; reflexivity. Qed.

(** ** What the command sets *)
Theorem C106_set : forall R (atof : str -> R) p sep w0 w1 n w3 s k u w5 b more, separator sep ->
  Forall argument (w0 :: w1 :: to_string n :: w3 :: (chr (48 + k) :: u) :: w5 :: more) ->
  0 <= n < 2 ^ 31 -> sort_word w3 s -> 0 <= k <= 6 -> yes_no w5 b ->
  match more with
  | [] => True
  | w6 :: l => (exists m, 0 <= m < 2 ^ 31 /\ w6 = to_string m) /\ match l with [] => True | w7 :: _ => exists b7, yes_no w7 b7 end
  end ->
  exists p', ModelSimulateParms R atof (line_of sep (w0 :: w1 :: to_string n :: w3 :: (chr (48 + k) :: u) :: w5 :: more)) p = Ok (0, p') /\
  p_eps p' = atof w0 /\ p_relax p' = atof w1 /\ p_maxit p' = n /\ sort_of (p_sort p') = s /\
  nth_error starting (Z.to_nat k) = Some (start_of (p_start p')) /\ p_debug p' = Z.b2z b /\
  (* the number of passes of an earlier command is kept, the trace of Newton is not *)
  match more with [] => p_passes p' = p_passes p | w6 :: _ => to_string (p_passes p') = w6 end /\
  match more with _ :: w7 :: _ => yes_no w7 (p_newton p' =? 1) | _ => p_newton p' = 0 end /\
  (* and what the report functions say *)
  SimMaxit p' = to_string n /\ SimInitValues p' = to_string k /\ SimSortNbPasses p' = match more with [] => to_string (p_passes p) | w6 :: _ => w6 end /\
  SimSortAlgo p' = match s with SORT_CONNEX => S2L "Connex" | SORT_BOTH => S2L "Triangulation" | SORT_NONE => S2L "None" end.
Proof.
  intros R atof p sep w0 w1 n w3 s k u w5 b more S A N W K Y M. unfold ModelSimulateParms. rewrite (words_back sep _ S A). rewrite (int_dec n N). cbn [rbind].
  rewrite (sort_word_code w3 s W), (yes_no_code w5 b Y). cbn [first].
  assert (C : code (chr (48 + k)) - 48 = k) by (rewrite code_chr; lia). rewrite C.
  assert (ST : nth_error starting (Z.to_nat k) = Some (start_of k)).
  { assert (k = 0 \/ k = 1 \/ k = 2 \/ k = 3 \/ k = 4 \/ k = 5 \/ k = 6) as X by lia. repeat (destruct X as [->|X]; [reflexivity|]). subst. reflexivity. }
  assert (SA : forall q : sparms R, p_sort q = sort_code s -> SimSortAlgo q = match s with SORT_CONNEX => S2L "Connex" | SORT_BOTH => S2L "Triangulation" | SORT_NONE => S2L "None" end).
  { intros q E. unfold SimSortAlgo. rewrite E. destruct s; reflexivity. }
  destruct more as [|w6 more].
  - cbn [rbind]. eexists. split; [reflexivity|]. cbn [p_eps p_relax p_maxit p_sort p_start p_debug p_passes p_newton]. rewrite sort_of_code. repeat split; try assumption. apply SA. reflexivity.
  - destruct M as [(m & Hm & ->) M]. rewrite (int_dec m Hm). cbn [rbind]. eexists. split; [reflexivity|]. cbn [p_eps p_relax p_maxit p_sort p_start p_debug p_passes p_newton]. rewrite sort_of_code.
    repeat split; try assumption; [|apply SA; reflexivity]. destruct more as [|w7 more]; [reflexivity|]. destruct M as (b7 & M). rewrite (yes_no_code w7 b7 M). destruct b7; exact M.
Qed.
Print Assumptions C106_set.
(** ** Fewer than six arguments: refused, nothing changes *)
Theorem C106_refused : forall R (atof : str -> R) p sep l, separator sep -> Forall argument l -> (length l < 6)%nat -> ModelSimulateParms R atof (line_of sep l) p = Ok (-1, p).
Proof.
  intros R atof p sep l S A L. unfold ModelSimulateParms. rewrite (words_back sep l S A). do 6 (destruct l as [|? l]; [reflexivity|]). cbn in L. lia.
Qed.
Print Assumptions C106_refused.
(** ** Whatever the text: the sort stays one of the three, and a refusal changes nothing *)
Lemma argpos_ctn c : 0 <= argpos (S2L "CTN") c <= 2.
Proof. unfold argpos. cbn [S2L list_ascii_of_string pos_in]. repeat destruct (Ascii.eqb _ _); lia. Qed.
Theorem C106_sort : forall R (atof : str -> R) arg p rc p', ModelSimulateParms R atof arg p = Ok (rc, p') ->
  (rc = 0 /\ 0 <= p_sort p' <= 2) \/ (rc = -1 /\ p' = p).
Proof.
  intros R atof arg p rc p'. unfold ModelSimulateParms. destruct (vtoms B_SEPS arg) as [|a0 [|a1 [|a2 [|a3 [|a4 [|a5 l]]]]]]; try (intros H; injection H as <- <-; right; split; reflexivity).
  destruct (int_of a2); cbn [rbind]; try discriminate. destruct (match l with [] => _ | _ :: _ => _ end); cbn [rbind]; try discriminate.
  intros H. injection H as <- <-. left. split; [reflexivity|]. apply argpos_ctn.
Qed.
Print Assumptions C106_sort.

(** ** A number that an int cannot hold, as the number of iterations or of passes *)
Theorem C106_overflow_refuted : forall R (atof : str -> R) p arg, In arg ["0.1 1 99999999999 Connex 0 No"; "0.1 1 100 Connex 0 No 99999999999"]%string ->
  ModelSimulateParms R atof (S2L arg) p = UB.
Proof. intros R atof p arg [<- | [<- | []]]; vm_compute; reflexivity. Qed.
Print Assumptions C106_overflow_refuted.
(** ** A sort set by other means (the variable KSIM_SORT) than the command: the name that is shown is not the one of the sort that is made *)
Theorem C106_other_sort_refuted : forall R (p : sparms R), p_sort p < 0 \/ 2 < p_sort p -> sort_of (p_sort p) = SORT_CONNEX /\ SimSortAlgo p = S2L "Triangulation".
Proof.
  intros R p H. unfold sort_of, SimSortAlgo. replace (p_sort p =? 2) with false by lia. replace (p_sort p =? 1) with false by lia.
  replace ((p_sort p <? 0) || (2 <? p_sort p)) with true by lia. split; reflexivity.
Qed.
Print Assumptions C106_other_sort_refuted.

(** ** Unknown words are accepted *)
Theorem C106_unknown_sort_refuted : forall R (atof : str -> R) p sep w0 w1 n w3 w4 w5, separator sep ->
  Forall argument [w0; w1; to_string n; w3; w4; w5] -> 0 <= n < 2 ^ 31 -> Forall (fun c => code c < 128) w3 -> ~ starts_in "cCtTbBnN" w3 ->
  exists p', ModelSimulateParms R atof (line_of sep [w0; w1; to_string n; w3; w4; w5]) p = Ok (0, p') /\ sort_of (p_sort p') = SORT_CONNEX /\ SimSortAlgo p' = S2L "Connex".
Proof.
  intros R atof p sep w0 w1 n w3 w4 w5 S A N ASC U. unfold ModelSimulateParms. rewrite (words_back sep _ S A), (int_dec n N). cbn [rbind]. eexists. split; [reflexivity|].
  assert (W : w3 <> []) by (inversion A as [|? ? _ A1]; inversion A1 as [|? ? _ A2]; inversion A2 as [|? ? _ A3]; inversion A3 as [|? ? [X _] _]; exact X).
  destruct w3 as [|c v]; [congruence|]. inversion ASC as [|? ? Hc _]; subst. cbn [first].
  assert (I : ~ In c (S2L "cCtTbBnN")) by (intros I; apply U; exists c, v; split; [reflexivity|exact I]).
  assert (B : mem (S2L "bB") c = false).
  { destruct (mem (S2L "bB") c) eqn:E; [|reflexivity]. exfalso. apply I. unfold mem in E. apply existsb_exists in E as (x & Hx & E). apply Ascii.eqb_eq in E. subst x. cbn in *. tauto. }
  rewrite B. assert (G : forallb (fun z => let c := chr (Z.of_nat z) in negb (code c <? 128) || existsb (Ascii.eqb c) (S2L "cCtTbBnN") || (argpos (S2L "CTN") c =? 0)) (seq 0 256) = true) by (vm_compute; reflexivity).
  rewrite forallb_forall in G. pose proof (code_range c) as CR. specialize (G (Z.to_nat (code c)) ltac:(apply in_seq; lia)). cbv zeta in G. rewrite Z2Nat.id in G by lia. rewrite chr_code in G.
  rewrite !orb_true_iff in G. destruct G as [[G|G]|G].
  - lia.
  - exfalso. apply I. apply existsb_exists in G as (x & Hx & E). apply Ascii.eqb_eq in E. subst x. exact Hx.
  - apply Z.eqb_eq in G. unfold SimSortAlgo. cbn [p_sort]. rewrite G. split; reflexivity.
Qed.
Print Assumptions C106_unknown_sort_refuted.
Theorem C106_unknown_start_refuted : forall R (atof : str -> R) p sep w0 w1 n w3 w4 w5, separator sep ->
  Forall argument [w0; w1; to_string n; w3; w4; w5] -> 0 <= n < 2 ^ 31 -> ~ starts_in "0123456" w4 ->
  exists p', ModelSimulateParms R atof (line_of sep [w0; w1; to_string n; w3; w4; w5]) p = Ok (0, p') /\ start_of (p_start p') = ASIS.
Proof.
  intros R atof p sep w0 w1 n w3 w4 w5 S A N U. unfold ModelSimulateParms. rewrite (words_back sep _ S A), (int_dec n N). cbn [rbind]. eexists. split; [reflexivity|]. cbn [p_start].
  destruct w4 as [|c v]; [reflexivity|]. cbn [first].
  assert (G : forall z, 0 <= z <= 6 -> code c <> 48 + z).
  { intros z Z0 E. apply U. exists c, v. split; [reflexivity|]. apply code_chr_eq in E; [|lia]. subst c.
    assert (z = 0 \/ z = 1 \/ z = 2 \/ z = 3 \/ z = 4 \/ z = 5 \/ z = 6) as X by lia. repeat (destruct X as [->|X]; [cbn; tauto|]). subst. cbn. tauto. }
  unfold start_of. 
  pose proof (G 0 ltac:(lia)). pose proof (G 1 ltac:(lia)). pose proof (G 2 ltac:(lia)). pose proof (G 3 ltac:(lia)). pose proof (G 5 ltac:(lia)). pose proof (G 6 ltac:(lia)).
  repeat match goal with |- context [?x =? ?y] => replace (x =? y) with false by lia end. reflexivity.
Qed.
Print Assumptions C106_unknown_start_refuted.

(** The reals are kept as texts in the examples. *)
Definition ex_parms : sparms str := mkSP (S2L "0.001") (S2L "1") 100 1 0 0 5 0.
Ltac args := repeat (apply Forall_cons; [split; [discriminate|repeat (apply Forall_cons; [vm_compute; intuition discriminate|]); apply Forall_nil]|]); apply Forall_nil.
Example C106_set_ex : separator " " /\ Forall argument [S2L "1e-4"; S2L "0.7"; to_string 200; S2L "Triang"; S2L "4"; S2L "no"; to_string 7; S2L "Yes"] /\
  sort_word (S2L "Triang") SORT_BOTH /\ yes_no (S2L "no") false /\ yes_no (S2L "Yes") true /\
  ModelSimulateParms str (fun w => w) (S2L "1e-4 0.7 200 Triang 4 no 7 Yes") ex_parms = Ok (0, mkSP (S2L "1e-4") (S2L "0.7") 200 1 4 0 7 1) /\
  ModelSimulateParms str (fun w => w) (S2L "1e-4,-3,200,Connex,2,Yes") ex_parms = Ok (0, mkSP (S2L "1e-4") (S2L "-3") 200 0 2 1 5 0).
Proof.
  split; [cbn; tauto|]. split; [args|]. split; [constructor; eexists _, _; split; [reflexivity|cbn; tauto]|].
  split; [constructor; eexists _, _; split; [reflexivity|cbn; tauto]|]. split; [constructor; eexists _, _; split; [reflexivity|cbn; tauto]|]. split; vm_compute; reflexivity.
Qed.
Example C106_refused_ex : ModelSimulateParms str (fun w => w) (S2L "1e-4 0.7 200 Triang 4") ex_parms = Ok (-1, ex_parms).
Proof. vm_compute. reflexivity. Qed.
Example C106_unknown_ex : Forall argument [S2L "1e-4"; S2L "0.7"; to_string 200; S2L "Gauss"; S2L "TM1"; S2L "no"] /\ ~ starts_in "cCtTbBnN" (S2L "Gauss") /\ ~ starts_in "0123456" (S2L "TM1") /\
  ModelSimulateParms str (fun w => w) (S2L "1e-4 0.7 200 Gauss TM1 no") ex_parms = Ok (0, mkSP (S2L "1e-4") (S2L "0.7") 200 0 36 0 5 0) /\ start_of 36 = ASIS.
Proof.
  split; [args|]. split; [intros (c & u & E & I); injection E as <- <-; cbn in I; intuition discriminate|]. split; [intros (c & u & E & I); injection E as <- <-; cbn in I; intuition discriminate|].
  split; vm_compute; reflexivity.
Qed.
