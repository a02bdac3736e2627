(** Theorems on reports: the procedures $procdef ... $procend, $procexec. *)
From Coq Require Import ZArith Ascii String List Bool Lia.
From Verif Require Import M_Base M_Names M_Lex M_Kdb M_Grep M_Report S_Names S_Report S_Report2 L_Names L_Kdb L_Time L_Report L_Report2 L_Report3 L_Report4 L_Report5 L_Report6 L_Report7 L_Report8 L_Report9 L_Report10 T_Report T_Report2.
Import ListNotations.
Open Scope Z_scope.

(** C89: a report that begins with definitions of procedures and goes on with lines that call them,
    directly or from one another, does what the lines say: each call executes the body with the
    formal parameters at the words of the call, and gives the macros back; what the report leaves is
    as for a report without procedures, and the state holds the procedures. *)
Theorem C89_procedures : forall (W : Type) (E : env W) (s : rep W) (p : policy)
    (name : str) (args : list str) (D : procs) (ds : list definition) (main : list stmt) (rc : Z) (c : conf W),
  let prog := flat_map def_lines ds ++ main in
  forallb simple_word (name :: args) = true -> Z.of_nat (length args) < 2 ^ 30 - 1 ->
  r_rt s = policy_code p -> numbered s -> 0 <= r_depth s -> r_vseps s = S2L ";, " ->
  proper s -> holds D s -> good_procs D ->
  forallb good_def ds = true -> (forall n fs b, In (n, fs, b) ds -> NoDup fs) ->
  e_file E name (c_world (start E s p args)) = Some (map line_of prog) ->
  forallb stmt_ok prog = true ->
  runs_to E (defined D ds) [] prog (length (flat_map def_lines ds)) (start E s p args) rc c ->
  exists s', ends (fun n => run_report E n (joined BLANK (name :: args))) s (Done rc s') /\
    leaves (set_procs (r_procs s') s) c s' /\ holds (defined D ds) s' /\ proper s'.
Proof.
  intros W E s p name args D ds main rc c prog Hw Hl Hp Hnum Hd Hv Hpr Hh HD Hg Hnd Hf Hok Hrun.
  set (s0 := entered E s (name :: args) (map line_of prog)).
  pose proof (entered_rel E s p name args (map line_of prog) Hp Hl) as Hr0.
  pose proof (entered_loaded E s (name :: args) (map line_of prog) Hnum) as Hl0. fold s0 in Hr0, Hl0.
  assert (He : r_procs s0 = r_procs s /\ r_next s0 = S (r_next s) /\
    r_files s0 = file_set (r_files s) (r_next s) {| rf_lines := map line_of prog; rf_pos := O |} /\
    r_vseps s0 = r_vseps s /\ r_depth s0 = r_depth s + 1).
  { unfold s0, entered. destruct (r_depth s =? 0); cbn; auto. }
  destruct He as (He1 & He2 & He3 & He4 & He5).
  assert (Hcl0 : clear (r_next s) s0).
  { intros q Hq Hfq. rewrite He1 in Hq. destruct (proj1 Hpr q Hq) as [_ B]. specialize (B _ Hfq). lia. }
  assert (Hpr0 : proper s0).
  { unfold proper. rewrite He1, He2. destruct Hpr as (P1 & P2 & P3). split; [|auto].
    intros q Hq. destruct (P1 q Hq) as [A B]. split; [lia|]. intros f Hfq. specialize (B f Hfq). lia. }
  assert (Hh0 : holds D s0).
  { intros k fs b Hk. destruct (Hh k fs b Hk) as (q & fid & pos & H1 & H2 & H3 & H4). exists q, fid, pos. rewrite He1, He3.
    split; [exact H1|]. split; [exact H2|]. split; [exact H3|]. rewrite file_get_set_other; [exact H4|].
    intros ->. unfold proc_find in H1. apply find_some in H1 as [H1 _]. apply (Hcl0 q); [rewrite He1; exact H1|exact H3]. }
  destruct (defs_ok E (r_next s) ds [] main s0 _ D Hok Hg Hr0 Hl0 Hpr0 Hcl0 Hh0) as (s1 & H1 & Hr1 & Hl1 & Hpr1 & Hcl1 & Hh1 & Hsg1 & Hn1).
  cbn [app] in Hl1. fold prog in Hl1.
  destruct (runs_to_ok E (defined D ds) (file_no s1) (good_defined ds D HD Hg Hnd) (holds_apart _ _ Hh1 Hpr1)
    [] prog _ _ rc c Hrun Hok (r_next s) s1 Hr1 Hl1) as (s2 & n0 & H2 & Hr2 & Hn2 & Hw2).
  { rewrite (sg_vseps _ _ Hsg1), He4. exact Hv. }
  { rewrite (sg_depth _ _ Hsg1), He5. lia. }
  { apply holds_ready, Hh1. }
  { apply holds_outer; [exact Hh1|exact Hcl1]. }
  assert (Hleft : r_procs (left_ s s2) = r_procs s1 /\ r_next (left_ s s2) = r_next s2 /\
    r_files (left_ s s2) = file_del (r_files s2) (r_next s)).
  { rewrite <- (wd_procs _ _ _ Hw2). unfold left_. destruct (r_depth s2 - 1 =? 0); cbn; auto. }
  destruct Hleft as (L1 & L2 & L3).
  exists (left_ s s2). split; [|split; [|split]].
  - exists (length ds + S n0)%nat. intros n Hn. rewrite (run_report_loop E n s name args _ Hw Hf). fold s0.
    replace n with (length ds + S (n - length ds - 1))%nat by lia. rewrite H1, H2 by lia. reflexivity.
  - eapply left_settings; [exact Hr2|]. eapply settings_trans; [exact Hsg1|eapply wide_settings; exact Hw2].
  - pose proof (ready_holds _ _ _ (ready_wide _ _ _ _ _ Hw2 (holds_ready _ _ Hh1))) as Hh2.
    intros k fs b Hk. destruct (Hh2 k fs b Hk) as (q & fid & pos & A1 & A2 & A3 & A4). exists q, fid, pos. rewrite L1, L3.
    rewrite (wd_procs _ _ _ Hw2) in A1. split; [exact A1|]. split; [exact A2|]. split; [exact A3|]. rewrite file_get_del; [exact A4|].
    intros ->. unfold proc_find in A1. apply find_some in A1 as [A1 _]. apply (Hcl1 q A1 A3).
  - pose proof (wd_next _ _ _ Hw2). unfold proper. rewrite L1, L2. destruct Hpr1 as (P1 & P2 & P3). split; [|auto].
    intros q Hq. destruct (P1 q Hq) as [A B]. split; [lia|]. intros f Hfq. specialize (B f Hfq). lia.
Qed.
Print Assumptions C89_procedures.

(** A procedure that prints its parameter and changes it: the macro with the name of the parameter
    is as before after the call. *)
Definition echo : list definition := [(S2L "P", [S2L "A"], [SText [Ref (S2L "A")]; SDefine (S2L "A") (lits (S2L "changed")); SText [Ref (S2L "A")]])].
Definition echo_main : list stmt := [SCall (S2L "P") [Num 1]; SText [Ref (S2L "A")]].
Theorem C89_parameter : forall (W : Type) (E : env W) (s : rep W) (p : policy)
    (name a : str) (args : list str) (before : str),
  forallb simple_word (name :: a :: args) = true -> Z.of_nat (length (a :: args)) < 2 ^ 30 - 1 ->
  printable a = true -> texty a = true ->
  r_rt s = policy_code p -> numbered s -> 0 <= r_depth s -> r_vseps s = S2L ";, " -> r_procs s = [] ->
  r_macros s = [(S2L "A", before)] -> texty before = true ->
  e_file E name (c_world (start E s p (a :: args))) = Some (map line_of (flat_map def_lines echo ++ echo_main)) ->
  exists s', ends (fun n => run_report E n (joined BLANK (name :: a :: args))) s (Done 0 s') /\
    r_trace s' = r_trace s ++ [Text (a ++ [chr 10]); Text (S2L "changed" ++ [chr 10]); NL; Text (before ++ [chr 10]); NL].
Proof.
  intros W E s p name a args before Hw Hl Hpa Hta Hp Hnum Hd Hv Hprocs Hm Htb Hf.
  set (c := start E s p (a :: args)). set (i := S2L "A").
  pose proof Hw as Hw'. cbn [forallb] in Hw'. rewrite !andb_true_iff in Hw'. destruct Hw' as (_ & Ha & _).
  unfold simple_word in Ha. rewrite !andb_true_iff in Ha. destruct Ha as [[[Ha1 Ha2] _] _].
  assert (Hq : without [34] a = true).
  { unfold without. rewrite forallb_forall in *. intros x Hx. specialize (Ha2 x Hx). apply negb_true_iff, among_false in Ha2.
    apply negb_true_iff, among_false. cbn in *. lia. }
  assert (Hwords : words a = [a]).
  { unfold words. apply tokens_one. unfold clean. rewrite Ha1. cbn [andb]. rewrite forallb_forall in *. intros x Hx. specialize (Ha2 x Hx).
    apply negb_true_iff, among_false in Ha2. apply negb_true_iff, among_false. cbn in *. lia. }
  assert (Hmac : forall k, c_macro c k = if str_eqb i k then Some before else None).
  { intros k. unfold c, start. cbn [c_macro]. rewrite Hm. reflexivity. }
  set (body := [SText [Ref i]; SDefine i (lits (S2L "changed")); SText [Ref i]]).
  set (D := defined (fun _ => None) echo).
  set (c1 := called [i] [a] c).
  set (c2 := with_macro i (Some (S2L "changed")) (out (Text (a ++ [chr 10])) c1)).
  set (c3 := out (Text (S2L "changed" ++ [chr 10])) c2).
  set (c4 := returned [i] c (out NL c3)).
  set (c5 := out (Text (before ++ [chr 10])) c4).
  assert (Hread : forall (c : conf W) v, c_macro c i = Some v -> value (reading_of E c) [Ref i] = v).
  { intros c' v Hc'. unfold value. cbn [flat_map value1]. rewrite app_nil_r. unfold reading_of. cbn [g_macro].
    change (match c_macro c' i with Some v => v | None => wrap PERCENT PERCENT i end = v). rewrite Hc'. reflexivity. }
  assert (Htext : forall (c : conf W) prog pc v, nth_error prog pc = Some (SText [Ref i]) -> c_macro c i = Some v -> texty v = true ->
    step E prog pc c = Next (S pc) (out (Text (v ++ [chr 10])) c)).
  { intros c' prog pc v Hn Hc' Ht. unfold step. rewrite Hn.
    change (forallb (piece_ok (reading_of E c')) (written (SText [Ref i]))) with true. cbv iota zeta. cbn [negb].
    rewrite (Hread c' v Hc'), Ht. reflexivity. }
  destruct (C89_procedures W E s p name (a :: args) (fun _ => None) echo echo_main 0 c5) as (s' & He & Hlv & _); auto.
  - unfold proper. rewrite Hprocs. split; [intros q []|]. split; [intros q q' []|intros q q' f []].
  - intros k fs b Hk. discriminate.
  - intros k fs b Hk. discriminate.
  - intros n fs b [Hin|[]]. injection Hin as <- <- <-. constructor; [intros []|constructor].
  - set (prog := flat_map def_lines echo ++ echo_main).
    assert (Hval : value (reading_of E c) [Num 1] = a) by (unfold value; cbn [flat_map]; rewrite app_nil_r; reflexivity).
    eapply (to_call E D [] prog 5 c (S2L "P") a [i] body 0 c3 6 c4).
    + exists [Num 1]. split; [reflexivity|]. split; [cbn [written]; rewrite forallb_app, lits_ok; reflexivity|].
      split; [symmetry; exact Hval|]. auto.
    + reflexivity.
    + intros [].
    + discriminate.
    + intros f [<-|[]] t. rewrite Hmac. destruct (str_eqb i (i ++ [SHARP] ++ t)) eqn:H; [|reflexivity]. apply str_eqb_iff in H. discriminate.
    + rewrite Hwords. change (values [i] [a]) with [a]. fold c1.
      eapply to_move; [apply moves_step; apply (Htext c1 body 0%nat a); [reflexivity|reflexivity|exact Hta]|].
      eapply to_move; [apply moves_step; unfold step; cbn [nth_error body]|].
      { rewrite (fun H => proj2 (Bool.negb_false_iff _) H).
        2:{ cbn [written]. rewrite forallb_app, !lits_ok by reflexivity. reflexivity. }
        cbv iota zeta. rewrite value_lits. change (printable (S2L "changed")) with true. cbv iota.
        change (shave (S2L "changed")) with (S2L "changed"). fold c2. reflexivity. }
      eapply to_move; [apply moves_step; apply (Htext c2 body 2%nat (S2L "changed")); [reflexivity|reflexivity|reflexivity]|].
      fold c3. apply to_stop. reflexivity.
    + intros f t [<-|[]]. unfold c3, c2. cbn [c_macro out with_macro]. rewrite Hwords. change (values [i] [a]) with [a]. fold c1.
      destruct (str_eqb i (i ++ [SHARP] ++ t)) eqn:H; [|reflexivity]. apply str_eqb_iff in H. discriminate.
    + reflexivity.
    + eapply to_move; [apply moves_step; apply (Htext c4 prog 6%nat before); [reflexivity| |exact Htb]|].
      * unfold c4, returned. cbn [c_macro with_macros is_formal existsb]. rewrite str_eqb_refl. cbn [orb]. rewrite Hmac, str_eqb_refl. reflexivity.
      * apply to_stop. reflexivity.
  - exists s'. split; [exact He|]. rewrite (lv_out _ _ _ Hlv). unfold c5, c4, c3, c2, c1.
    cbn [c_out out returned with_macros with_macro called]. change (c_out c) with (r_trace s). rewrite <- !app_assoc. reflexivity.
Qed.
Print Assumptions C89_parameter.

(** Concrete reports. *)
Example C89_case : printed ["$procdef P A B"; "%A%-%B%"; "$procend"; "$procdef Q X"; "$procexec P %X% 1 2 3"; "%X%";
    "$procend"; "$define A out"; "$procexec Q %1%"; "$procexec P u"; "%A% %B%"]%string " z" =
  Some [ln "z-1 2 3"; ln "z"; ln "u-%B%"; ln "out %B%"].
Proof. vm_compute. reflexivity. Qed.
Example C89_redefinition_case : printed ["$procdef P"; "one"; "$procend"; "$procexec P"; "$procdef P"; "two"; "$procend"; "$procexec P"]%string "" =
  Some [ln "one"; ln "two"].
Proof. vm_compute. reflexivity. Qed.

(** C89, not in general: in a procedure that calls itself, the lines after the call are never
    executed in the outer executions. *)
Theorem C89_recursion_refuted :
  printed ["$procdef P A B"; "in %A%"; "$goto done @equal(%B%,stop)"; "$procexec P second stop"; "after %A%"; "$label done"; "$procend";
           "$procexec P first go"]%string "" =
  Some [ln "in first"; ln "in second"].
Proof. vm_compute. reflexivity. Qed.
Print Assumptions C89_recursion_refuted.
(** C89, not in general: a call with words of a procedure without formal parameter writes outside
    of an array. *)
Definition outcome_of (lines lines2 : list string) : run unit Z :=
  match run_report (rep_of lines) 100 (S2L "a.rep") (fresh 0) with
  | Done _ s => match run_report (rep_of lines2) 100 (S2L "b.rep") s with
                | Done rc _ => Done rc tt | Thrown _ => Thrown tt | Undefined => Undefined | Unmodelled => Unmodelled | Late => Late
                end
  | Thrown _ => Thrown tt | Undefined => Undefined | Unmodelled => Unmodelled | Late => Late
  end.
Theorem C89_words_refuted :
  outcome_of ["$procdef P"; "x"; "$procend"]%string ["$procexec P"]%string = Done 0 tt /\
  outcome_of ["$procdef P"; "x"; "$procend"]%string ["$procexec P 1"]%string = Undefined.
Proof. vm_compute. split; reflexivity. Qed.
Print Assumptions C89_words_refuted.
(** C89, not in general: a procedure without $procend has no lines: the rest of the report is
    skipped, and calling it from another report reads a null pointer.  A $procend after a tabulation
    is not seen. *)
Definition tab : string := String (chr 9) EmptyString.
Theorem C89_procend_refuted :
  printed ["$procdef P"; "x"; "after"]%string "" = Some [] /\
  outcome_of ["$procdef P"; "x"]%string ["$procexec P"]%string = Undefined /\
  outcome_of ["$procdef P"; "x"; (tab ++ "$procend")%string]%string ["$procexec P"]%string = Undefined.
Proof. vm_compute. repeat split; reflexivity. Qed.
Print Assumptions C89_procend_refuted.
(** C89, not in general: a body that defines a procedure with its own name destroys what it is
    executed from. *)
Theorem C89_redefined_inside_refuted :
  outcome_of ["$procdef P"; "$procdef P"; "$procend"; "x"]%string ["$procexec P"]%string = Undefined.
Proof. vm_compute. reflexivity. Qed.
Print Assumptions C89_redefined_inside_refuted.
