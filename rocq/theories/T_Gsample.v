(** Theorems on generalised samples: the columns that the compiler of samples makes of a text. *)
From Coq Require Import ZArith Ascii String List Bool Lia ZifyBool.
From Verif Require Import M_Base M_Time M_Names M_Lex M_Ascii M_Gsample S_Time S_Names S_Ascii S_Gsample L_Time L_Names L_Ascii L_Gsample L_Gsample2.
Import ListNotations.
Open Scope Z_scope.

(** * C78: the columns of a sample *)

(** Every sample of the language of [S_Gsample], whatever its length and its depth, compiles to the columns that the manual gives
    it, in the same order; the sample may hold any number of groups inside groups, of shifts and of files. Excepted: a shift to the
    left of a group of several columns. *)
Theorem C78_columns : forall e w g c2, describes e w -> wf_gs w g -> mild_gs w g ->
  exists l b, COL_cc e c2 (p_gs g) = Done (Some l, b) /\ map view l = v_cols w g.
Proof.
  intros e w g c2 D W M. destruct (COL_cc_ok e w g [] c2 D W M I) as (l & b & E & V & _). rewrite app_nil_r in E. exists l, b. auto.
Qed.
Print Assumptions C78_columns.

(** A workspace from 1990Q1 to 2010Q4, on 17 November 2026. *)
Definition w_ex : world := mkW (mkP 1990 1 "Q") (mkP 2010 4 "Q") (mkP 2026 4 "Q").
Definition e_ex : genv := mkE (Some (mkS (mkP 1990 1 "Q") (mkP 2010 4 "Q") 84)) 20261117 47.
Lemma Vq y s : 1 <= s <= 4 -> valid_period (mkP y s "Q").
Proof. intros H. exists 4. split; [constructor|exact H]. Qed.
Lemma d_ex : describes e_ex w_ex.
Proof.
  split; [exists 84; reflexivity|]. split; [apply Vq; lia|]. split; [apply Vq; lia|]. split; [apply Vq; lia|].
  split; [reflexivity|]. split; [reflexivity|]. split; [reflexivity|cbn; auto].
Qed.
Ltac well := repeat match goal with
  | |- _ /\ _ => split
  | |- Forall _ [] => constructor
  | |- Forall _ (_ :: _) => constructor; cbn
  | |- letter _ => unfold letter; cbn; auto 20
  | |- at_most_one _ _ => unfold at_most_one; cbn
  | |- wf_per _ => unfold wf_per; cbn
  | |- wf_gs _ _ => progress cbn
  end; try discriminate; try lia; auto 20.
Definition Q (y s : Z) : gper := mkGP (AYear y) (Some ("q"%char, s)) [].
(** A quarter, twice, going back by two; then, for two files, a growth over a year and the index of the last quarter. *)
Definition g_ex : gs :=
  More (Item (One (Q 99 2)) [Repeat (Num 2) (Some (true, Num 2))])
  (Last (Item (Group (More (Item (Two (Q 2000 1) GRT (mkGP (AYear 2000) (Some ("Q"%char, 1)) [(true, PerYear)])) [])
                     (Last (Item (Two (mkGP AEos None []) BASE (mkGP ABos1 None [(false, Num 0)])) [Files (F2 2 DIFF 1) []]))))
              [Shift false (Num 1); Files (F1 1) [F1 2]])).
Example C78_ex : wf_gs w_ex g_ex /\ mild_gs w_ex g_ex
  /\ p_gs g_ex = S2L "99q2:2*-2;(2000q1/2000Q1<PER;EOS=BOS1>0[2-1])>1[1;2]"
  /\ v_cols w_ex g_ex =
     [mkV NOP (mkP 1999 2 "Q") None (Some (NOP, 1, 0)); mkV NOP (mkP 1998 4 "Q") None (Some (NOP, 1, 0));
      mkV GRT (mkP 2000 2 "Q") (Some (mkP 1999 2 "Q")) (Some (NOP, 1, 0));
      mkV GRT (mkP 2000 2 "Q") (Some (mkP 1999 2 "Q")) (Some (NOP, 2, 0));
      mkV BASE (mkP 2011 1 "Q") (Some (mkP 1991 1 "Q")) (Some (DIFF, 2, 1))].
Proof.
  split; [|split; [|split; vm_compute; reflexivity]].
  - cbn; well.
  - vm_compute; well.
Qed.

(** The full statement, without the restriction, is false: a shift to the left of a group moves its second column to the right. *)
Definition g_shift : gs :=
  Last (Item (Group (More (Item (One (mkGP (AYear 2000) None [])) []) (Last (Item (One (mkGP (AYear 2001) None [])) []))))
             [Shift true (Num 1)]).
Theorem C78_group_shift_refuted :
  ~ (forall e w g c2, describes e w -> wf_gs w g -> exists l b, COL_cc e c2 (p_gs g) = Done (Some l, b) /\ map view l = v_cols w g).
Proof.
  intros H. destruct (H e_ex w_ex g_shift true d_ex) as (l & b & E & V).
  - cbn; well.
  - vm_compute in E. injection E as <- _. vm_compute in V. discriminate.
Qed.
Print Assumptions C78_group_shift_refuted.

(** What the code says of itself (c_cc.cpp:895) that a shift after an operation moves both periods is false: it moves the second one. *)
Definition first_periods (r : io (option (list col) * bool)) : list (period * period) :=
  match r with Done (Some l, _) => map (fun c => (per0 c, per1 c)) l | _ => [] end.
Theorem C78_both_refuted :
  ~ (forall e w c2, describes e w ->
     first_periods (COL_cc e c2 (S2L "2000Q3/2000Q1<2")) = [(mkP 2000 1 "Q", mkP 1999 3 "Q")]).
Proof. intros H. specialize (H e_ex w_ex true d_ex). vm_compute in H. discriminate. Qed.
Print Assumptions C78_both_refuted.

(** A blank before a shift changes what is shifted. *)
Theorem C78_blank_refuted :
  ~ (forall e w c2 a b, describes e w -> COL_cc e c2 (a ++ S2L " " ++ S2L "<" ++ b) = COL_cc e c2 (a ++ S2L "<" ++ b)).
Proof. intros H. specialize (H e_ex w_ex true (S2L "2000/1999") (S2L "2") d_ex). vm_compute in H. discriminate. Qed.
Print Assumptions C78_blank_refuted.

(** * C79: what every accepted text gives *)

(** Whatever the text: when it is accepted there is a column, and the first period of every column exists and its first file is one
    of the ten. *)
Theorem C79_accepted : forall e w c2 t l b, describes e w -> COL_cc e c2 t = Done (Some l, b) ->
  l <> [] /\ Forall (fun c => valid_period (per0 c) /\ opf c <> None /\ 1 <= fnb0 c <= 10) l.
Proof. intros e w c2 t l b D E. exact (COL_cc_fine e w D c2 t l b E). Qed.
Print Assumptions C79_accepted.
Example C79_ex : exists l b b', COL_cc e_ex true (S2L "eos ; (2000 Q1:3*2 [1+2]) > 3") = Done (None, b)
  /\ COL_cc e_ex true (S2L "EOS ; (2000Q1:3*2 [1+2]) > 3") = Done (Some l, b') /\ length l = 4%nat.
Proof. eexists. eexists. eexists. split; [vm_compute; reflexivity|]. split; [vm_compute; reflexivity|]. reflexivity. Qed.

(** The second period of a column may not exist: 2000Q12 here (with / it would be 2002Q4). *)
Theorem C79_second_refuted :
  ~ (forall e w c2 t l b, describes e w -> COL_cc e c2 t = Done (Some l, b) -> Forall (fun c => opy c <> NOP -> valid_period (per1 c)) l).
Proof.
  intros H. pose proof (H e_ex w_ex true (S2L "(2000M5=2000Q3)>0") _ _ d_ex ltac:(vm_compute; reflexivity)) as F.
  inversion F as [|x y K _]; subst. destruct (K ltac:(discriminate)) as (nb & Hn & B). cbn in B, Hn. inversion Hn; subst; lia.
Qed.
Print Assumptions C79_second_refuted.
(** The second file may be any number: there are five workspaces at most, 0 is none of them. *)
Theorem C79_file_refuted :
  ~ (forall e w c2 t l b, describes e w -> COL_cc e c2 t = Done (Some l, b) -> Forall (fun c => opf c <> Some NOP -> 1 <= fnb1 c <= 10) l).
Proof.
  intros H. pose proof (H e_ex w_ex true (S2L "2000[1-0]") _ _ d_ex ltac:(vm_compute; reflexivity)) as F.
  inversion F as [|x y K _]; subst. specialize (K ltac:(discriminate)). cbn in K. lia.
Qed.
Print Assumptions C79_file_refuted.
(** In a week-based workspace the reference period may not exist, even when both periods are weeks: the current week may be
    week 53, and years have 52 weeks in IODE. *)
Theorem C79_week_refuted :
  ~ (forall smp date week c2 t l b, valid_period (s_start smp) -> valid_period (s_end smp) -> 0 <= week <= 53 ->
     COL_cc (mkE (Some smp) date week) c2 t = Done (Some l, b) ->
     Forall (fun c => opy c <> NOP -> per (per1 c) = per (per0 c) -> valid_period (per1 c)) l).
Proof.
  intros H.
  assert (V : valid_period (mkP 2020 1 "W")) by (exists 52; split; [constructor|cbn; lia]).
  pose proof (H (mkS (mkP 2020 1 "W") (mkP 2020 1 "W") 1) 20210102 0 true (S2L "BOS=NOW") _ _ V V ltac:(lia) ltac:(vm_compute; reflexivity)) as F.
  inversion F as [|x y K _]; subst. destruct (K ltac:(discriminate) eq_refl) as (nb & Hn & B). cbn in B, Hn. inversion Hn; subst; lia.
Qed.
Print Assumptions C79_week_refuted.

(** A closing parenthesis too many ends the sample: what follows, whatever it is, has no effect, and there is no error. *)
Theorem C79_rest_ignored : forall e w g c2 t, describes e w -> wf_gs w g -> mild_gs w g ->
  exists l b, COL_cc e c2 (p_gs g ++ S2L ")" ++ t) = Done (Some l, b) /\ map view l = v_cols w g.
Proof. intros e w g c2 t D W M. destruct (COL_cc_ok e w g (S2L ")" ++ t) c2 D W M eq_refl) as (l & b & E & V & _). exists l, b. auto. Qed.
Print Assumptions C79_rest_ignored.
(** So the statement that a text is accepted only if its parentheses match is false, in both directions. *)
Definition opens (c : ascii) (t : str) : nat := length (filter (Ascii.eqb c) t).
Theorem C79_parentheses_refuted :
  ~ (forall e w c2 t l b, describes e w -> COL_cc e c2 t = Done (Some l, b) -> (opens "(" t <= opens ")" t)%nat)
  /\ ~ (forall e w c2 t l b, describes e w -> COL_cc e c2 t = Done (Some l, b) -> (opens ")" t <= opens "(" t)%nat).
Proof.
  split; intros H.
  - pose proof (H e_ex w_ex true (S2L "((2000;2001") _ _ d_ex ltac:(vm_compute; reflexivity)) as K. vm_compute in K. lia.
  - pose proof (H e_ex w_ex true (S2L "2000);;;]") _ _ d_ex ltac:(vm_compute; reflexivity)) as K. vm_compute in K. lia.
Qed.
Print Assumptions C79_parentheses_refuted.
(** A number of more than 255 digits overruns the buffer of the reader. *)
Theorem C79_defined_refuted :
  ~ (forall e w c2 t, describes e w -> COL_cc e c2 t <> Undefined).
Proof. intros H. apply (H e_ex w_ex true (repeat "1"%char 300) d_ex). vm_compute. reflexivity. Qed.
Print Assumptions C79_defined_refuted.

(** * C80: the reader after a sample *)

(** Compiling a sample changes how every later text is read: YY_COMMENT2, a global variable, stays at 0 after a sample whose last item
    has no operator, so that two slashes no longer start a comment. *)
Theorem C80_comments_refuted :
  ~ (forall e w c2 t o b, describes e w -> COL_cc e c2 t = Done (o, b) -> b = c2).
Proof. intros H. pose proof (H e_ex w_ex true (S2L "2000") _ _ d_ex ltac:(vm_compute; reflexivity)). discriminate. Qed.
Print Assumptions C80_comments_refuted.
(** The same text may be accepted or not according to the samples that were compiled before it. *)
Theorem C80_history_refuted :
  ~ (forall e w c2 c2' t o b o' b', describes e w -> COL_cc e c2 t = Done (o, b) -> COL_cc e c2' t = Done (o', b') -> o = o').
Proof.
  intros H. pose proof (H e_ex w_ex true false (S2L "// the base year" ++ [chr 10] ++ S2L "2000") _ _ _ _ d_ex ltac:(vm_compute; reflexivity) ltac:(vm_compute; reflexivity)).
  discriminate.
Qed.
Print Assumptions C80_history_refuted.
