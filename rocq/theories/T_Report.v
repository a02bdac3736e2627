(** Theorems on reports: expansion of a line, execution of a report. *)
From Coq Require Import ZArith Ascii String List Bool Lia.
From Verif Require Import M_Base M_Names M_Lex M_Kdb M_Grep M_Report S_Report L_Report L_Report2 L_Report3 L_Report4.
Import ListNotations.
Open Scope Z_scope.

(** A small world for the cases below: a number; a formula gives that number; $step takes one off
    it, $fail fails, $halt asks for the end. *)
Definition E0 : env Z :=
  {| e_lec := fun _ w => to_string w;
     e_fn := fun _ _ _ => None;
     e_cmd := fun n _ => if str_eqb n (S2L "step") then Some (fun _ w => (Some 0, w - 1))
                         else if str_eqb n (S2L "fail") then Some (fun _ w => (Some (-1), w))
                         else if str_eqb n (S2L "halt") then Some (fun _ w => (Some (-3), w))
                         else if str_eqb n (S2L "boom") then Some (fun _ w => (None, w))
                         else None;
     e_file := fun n _ => if str_eqb n (S2L "a.rep") then Some [S2L "hello %1%"; S2L "$return"; S2L "never"] else None;
     e_top := fun w => w |}.

(** C86: a line inside a report is replaced, piece by piece, by what its pieces stand for; nothing
    else changes. *)
Theorem C86_expand : forall (W : Type) (E : env W) (n : nat) (ps : list piece) (s : rep W),
  in_report s -> forallb (piece_ok (reading_in E s)) ps = true ->
  expand E (S n) (source ps) s = Done (value (reading_in E s) ps) s.
Proof.
  intros W E n ps s (H1 & H2 & H3) H. apply (expand_pieces E (level E n)); [|exact H].
  constructor; auto.
Qed.
Print Assumptions C86_expand.
Example C86_case :
  let s := set_macros [(S2L "X", S2L "a B.c"); (S2L "LG", S2L "F")] (set_args (map S2L ["r.rep"; "one"; "two"; "three"]%string) 1 (fresh 7)) in
  let ps := lits (S2L "cost: ") ++ [Ref (S2L " X "); Lit (chr 44); Mod (chr 35) (S2L "X"); Mod (chr 33) (S2L "X"); Mod (chr 45) (S2L "X");
      Esc (chr 37); Esc (chr 64); Esc (chr 123); Esc (chr 96); Ref (S2L "Y"); Num 1; Num 3; Count; All; Raw (S2L "%X% {1+"); Lec (S2L "A+B")] in
  in_report s /\ forallb (piece_ok (reading_in E0 s)) ps = true /\
  source ps = S2L "cost: % X %,%#X%%!X%%-X%%%@@{{``%Y%%1%%3%%0%%*%`%X% {1+`{A+B}" /\
  expand E0 3 (source ps) s = Done (S2L "cost: a B.c,A B.Ca b.caBc%@{`%Y%two%3%2two;three%X% {1+7") s.
Proof. vm_compute. repeat split; congruence. Qed.

(** C86, texts of which nothing is to be replaced. *)
Theorem C86_plain : forall (W : Type) (E : env W) (n : nat) (t : str) (s : rep W),
  without [37; 123; 64; 96] t = true -> expand E (S n) t s = Done t s.
Proof.
  intros W E n t s H. unfold expand. cbn [level f_expand]. rewrite expand_all.
  rewrite <- (app_nil_r t) at 1. rewrite scan_lits.
  - reflexivity.
  - unfold without in H. rewrite forallb_forall in *. intros c Hc. specialize (H c Hc).
    apply negb_true_iff, among_false in H. cbn in H. unfold ordinary, special, is.
    change BACKQ with (chr 96). rewrite eqb_code by lia. destruct (r_nopar s); lia.
Qed.
Print Assumptions C86_plain.
Example C86_plain_case : without [37; 123; 64; 96] (S2L "A text, $not a command}.") = true.
Proof. reflexivity. Qed.

(** C86, not in general: a single '%' followed by '-', '!' or '#' disappears, also when it is
    followed by a digit; an open brace without its closing brace is lost with the character that
    follows it, at the end of the line it reads beyond the end; an open back quote is lost likewise. *)
Theorem C86_percent_refuted :
  expand E0 9 (S2L "between 5%-10") (fresh 0) = Done (S2L "between 5-10") (fresh 0).
Proof. vm_compute. reflexivity. Qed.
Print Assumptions C86_percent_refuted.
Theorem C86_brace_refuted :
  expand E0 9 (S2L "set {A, B and C") (fresh 0) = Done (S2L "set , B and C") (fresh 0) /\
  forall (W : Type) (E : env W) n t (s : rep W), without [37; 123; 64; 96] t = true ->
    expand E (S n) (t ++ [LBRACE]) s = Undefined.
Proof.
  split; [vm_compute; reflexivity|].
  intros W E n t s H. unfold expand. cbn [level f_expand]. rewrite expand_all. rewrite scan_lits.
  - reflexivity.
  - unfold without in H. rewrite forallb_forall in *. intros c Hc. specialize (H c Hc).
    apply negb_true_iff, among_false in H. cbn in H. unfold ordinary, special, is.
    change BACKQ with (chr 96). rewrite eqb_code by lia. destruct (r_nopar s); lia.
Qed.
Print Assumptions C86_brace_refuted.
Theorem C86_backquote_refuted :
  expand E0 9 (S2L "it`s 5 %X%") (set_macros [(S2L "X", S2L "F")] (fresh 0)) =
  Done (S2L "it 5 F") (set_macros [(S2L "X", S2L "F")] (fresh 0)).
Proof. vm_compute. reflexivity. Qed.
Print Assumptions C86_backquote_refuted.

(** C87: a report made of texts, comments, definitions, labels, jumps, commands, error policies,
    shifts, returns and aborts does what its lines say, one after the other, and leaves what it
    should. *)
Theorem C87_report_ends : forall (W : Type) (E : env W) (s : rep W) (p : policy)
    (name : str) (args : list str) (prog : list stmt) (k : nat) (rc : Z) (c : conf W),
  forallb simple_word (name :: args) = true -> Z.of_nat (length args) < 2 ^ 30 - 1 ->
  r_rt s = policy_code p -> numbered s ->
  e_file E name (c_world (start E s p args)) = Some (map line_of prog) ->
  forallb stmt_ok prog = true ->
  runs E prog k 0 (start E s p args) = Stop rc c ->
  exists s', ends (fun n => run_report E n (joined BLANK (name :: args))) s (Done rc s') /\ leaves s c s'.
Proof.
  intros W E s p name args prog k rc c Hw Hl Hp Hnum Hf Hok Hrun.
  destruct (loop_runs E prog (r_next s) Hok k 0 (entered E s (name :: args) (map line_of prog))
    (start E s p args) rc c (entered_rel E s p name args _ Hp Hl) (entered_loaded E s _ _ Hnum) Hrun)
    as (s1 & He & Hr & _ & Hfr).
  exists (left_ s s1). split; [|eapply left_leaves; eauto].
  exists (S k). intros n Hn. rewrite (run_report_loop E n s name args _ Hw Hf).
  destruct (level_below E _ _ Hn) as (_ & _ & HL & _).
  destruct (HL (r_next s) (entered E s (name :: args) (map line_of prog))) as [H|H]; rewrite He in H; [discriminate|].
  rewrite <- H. reflexivity.
Qed.
Print Assumptions C87_report_ends.
(** C87, a report that never stops. *)
Theorem C87_report_never_ends : forall (W : Type) (E : env W) (s : rep W) (p : policy)
    (name : str) (args : list str) (prog : list stmt),
  forallb simple_word (name :: args) = true -> Z.of_nat (length args) < 2 ^ 30 - 1 ->
  r_rt s = policy_code p -> numbered s ->
  e_file E name (c_world (start E s p args)) = Some (map line_of prog) ->
  forallb stmt_ok prog = true ->
  (forall k, exists pc c, runs E prog k 0 (start E s p args) = Next pc c) ->
  never_ends (fun n => run_report E n (joined BLANK (name :: args))) s.
Proof.
  intros W E s p name args prog Hw Hl Hp Hnum Hf Hok Hrun n.
  rewrite (run_report_loop E n s name args _ Hw Hf).
  rewrite (loop_never E prog (r_next s) Hok n 0 _ (start E s p args)); auto.
  - apply (entered_rel E s p name args _ Hp Hl).
  - apply entered_loaded, Hnum.
Qed.
Print Assumptions C87_report_never_ends.

(** A report that counts down with a label, a condition, a macro and a failing command. *)
Definition countdown : list stmt :=
  [ SComment (lits (S2L "count down"));
    SDefine (S2L "who") (lits (S2L "  ") ++ [Num 1] ++ lits (S2L " "));
    SShift 1;
    SLabel (S2L "again");
    SText (lits (S2L "at ") ++ [Lec (S2L "N")] ++ lits (S2L " for ") ++ [Ref (S2L "who")]);
    SCmd false (S2L "step") [];
    SGoto (S2L "Again") (Some [Lec (S2L "N")]);
    SCmd true (S2L "fail") [All];
    SCmd false (S2L "Fail") [All];
    SOnError Return;
    SCmd false (S2L "unknown") (lits (S2L "100") ++ [Esc PERCENT; Esc PERCENT]);
    SText (lits (S2L "never printed")) ].
Definition E1 : env Z :=
  {| e_lec := e_lec E0; e_fn := e_fn E0; e_cmd := e_cmd E0;
     e_file := fun _ _ => Some (map line_of countdown); e_top := e_top E0 |}.
Example C87_case :
  forallb stmt_ok countdown = true /\
  (exists c, runs E1 countdown 30 0 (start E1 (fresh 2) Ignore (map S2L ["Ann"; "x"; "y"]%string)) = Stop 0 c /\
     c_out c = [Text (S2L "at 2 for Ann" ++ [chr 10]); Ran (S2L "step") []; Text (S2L "at 1 for Ann" ++ [chr 10]); Ran (S2L "step") [];
                Ran (S2L "fail") (S2L "x;y"); Ran (S2L "fail") (S2L "x;y"); Failed (S2L "Fail"); Failed (S2L "unknown")] /\ c_world c = 0).
Proof.
  split; [vm_compute; reflexivity|]. eexists. split; [|split].
  - vm_compute. reflexivity.
  - reflexivity.
  - reflexivity.
Qed.
Example C87_never_case :
  let prog := [SLabel (S2L "a"); SText []; SGoto (S2L "A") None] in
  forallb stmt_ok prog = true /\ forall k, exists pc c, runs E1 prog k 0 (start E1 (fresh 2) Ignore []) = Next pc c.
Proof.
  split; [vm_compute; reflexivity|]. intros k.
  assert (H : forall k pc c, (pc < 3)%nat -> exists pc' c', runs E1 [SLabel (S2L "a"); SText []; SGoto (S2L "A") None] k pc c = Next pc' c').
  { clear k. induction k as [|k IH]; intros pc c Hpc; [eexists _, _; reflexivity|].
    destruct pc as [|[|[|pc]]]; [| | |lia]; destruct c as [m a p sh [|] o w]; cbn [runs];
      match goal with |- context [step E1 ?q ?i ?d] =>
        let r := eval vm_compute in (match step E1 q i d with Next j _ => j | _ => O end) in
        destruct (step E1 q i d) as [pc' c'| |] eqn:Hs; [assert (pc' = r) as -> by (apply (f_equal (fun o => match o with Next j _ => j | _ => O end)) in Hs; symmetry; exact Hs); apply IH; lia|discriminate|discriminate]
      end. }
  apply H. lia.
Qed.
