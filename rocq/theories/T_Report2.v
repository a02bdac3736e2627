(** Theorems on reports: the loops $foreach ... $next. *)
From Coq Require Import ZArith Ascii String List Bool Lia.
From Verif Require Import M_Base M_Names M_Lex M_Kdb M_Grep M_Report S_Names S_Report L_Names L_Kdb L_Time L_Report L_Report2 L_Report3 L_Report4 L_Report5 L_Report6 L_Report7 L_Report8 T_Report.
Import ListNotations.
Open Scope Z_scope.

(** C88: a report with loops does what its lines say, the loops included, and leaves what it
    should. *)
Theorem C88_report_loops : forall (W : Type) (E : env W) (s : rep W) (p : policy)
    (name : str) (args : list str) (prog : list stmt) (pc : nat) (c1 : conf W) (rc : Z) (c : conf W),
  forallb simple_word (name :: args) = true -> Z.of_nat (length args) < 2 ^ 30 - 1 ->
  r_rt s = policy_code p -> numbered s -> 0 <= r_depth s -> r_vseps s = S2L ";, " ->
  e_file E name (c_world (start E s p args)) = Some (map line_of prog) ->
  forallb stmt_ok prog = true ->
  goes E prog 0 (start E s p args) pc c1 -> step E prog pc c1 = Stop rc c ->
  exists s', ends (fun n => run_report E n (joined BLANK (name :: args))) s (Done rc s') /\ leaves s c s'.
Proof.
  intros W E s p name args prog pc c1 rc c Hw Hl Hp Hnum Hd Hv Hf Hok Hg Hs.
  set (s0 := entered E s (name :: args) (map line_of prog)).
  pose proof (entered_rel E s p name args (map line_of prog) Hp Hl) as Hr0.
  pose proof (entered_loaded E s (name :: args) (map line_of prog) Hnum) as Hl0.
  destruct (loop_goes E (r_next s) prog Hok 0 _ pc c1 Hg s0 Hr0 Hl0) as (s1 & k & m0 & H1 & Hr1 & Hl1 & Hf1).
  { unfold s0, entered. cbn. destruct (r_depth s =? 0); exact Hv. }
  { unfold s0, entered. cbn. lia. }
  pose proof (loop_step E (r_next s) prog pc s1 c1 Hok Hr1 Hl1) as H2. rewrite Hs in H2.
  destruct H2 as (s2 & H2 & Hr2 & _ & Hf2).
  exists (left_ s s2). split; [|eapply left_leaves; [exact Hr2|eapply frame_trans; [exact Hf1|exact Hf2]]].
  exists (S (k + S m0)). intros n Hn. rewrite (run_report_loop E n s name args _ Hw Hf).
  replace n with (S (k + S (n - S (S k))))%nat by lia. fold s0. rewrite H1 by lia. rewrite H2. reflexivity.
Qed.
Print Assumptions C88_report_loops.

(** C88, what a loop does: the body is executed once for each element of the list, in order, with
    the index at the element; after the loop the index is as it was before, and the next line is
    the line after $next.  The body leaves the macros of the loop alone, contains no $foreach with
    the same index, and is described by its effect [body] on the states that satisfy [P]. *)
Theorem C88_each_element : forall (W : Type) (E : env W) (prog : list stmt) (pf pn : nat) (i : str)
    (ps : list piece) (body : conf W -> conf W) (P : conf W -> Prop) (c : conf W) (es : list str),
  index_ok i = true ->
  nth_error prog pf = Some (SForeach i ps) -> nth_error prog pn = Some (SNext i) -> (pf < pn)%nat ->
  (forall k st, (pf < k < pn)%nat -> nth_error prog k = Some st -> is_foreach i st = false) ->
  forallb (piece_ok (reading_of E c)) (written (SForeach i ps)) = true ->
  list_ok (value (reading_of E c) ps) = true ->
  elements (value (reading_of E c) ps) = es -> es <> [] ->
  (forall k, own i k -> c_macro c k = None) ->
  (forall c e es, P c -> P (turn i e es c)) ->
  (forall c e, P c -> In e es -> c_macro c i = Some e ->
     goes E prog (S pf) c pn (body c) /\ P (body c) /\ forall k, own i k -> c_macro (body c) k = c_macro c k) ->
  P (out NL (keep i c)) ->
  goes E prog pf c (S pn) (give_back i (c_macro c i) (each i body es (out NL (keep i c)))).
Proof.
  intros W E prog pf pn i ps body P c es Hi Hf Hn Hlt Hbt Hp Hv He Hne Hown Hturn Hbody HP.
  destruct es as [|e es]; [congruence|].
  assert (Hc : no_copy c i) by (intros t; apply Hown; right; left; exists t; reflexivity).
  assert (Hcl : no_copy c (left_name i)) by (intros t; apply Hown; right; right; exists t; reflexivity).
  assert (Hl : c_macro c (left_name i) = None) by (apply Hown; left; reflexivity).
  eapply goes_cons.
  - eapply moves_enter; eauto.
  - eapply (goes_each E prog pf pn i ps body Hi Hf Hn Hlt Hbt _ P) with (es0 := []); eauto.
    + intros c' e' Hc' Hin. apply Hbody; [exact Hc'|]. rewrite <- He. exact Hin.
    + split.
      * cbn [c_macro out]. apply keep_kept, Hc.
      * intros t Ht. cbn [c_macro out]. rewrite keep_other; [apply Hc|].
        unfold kept_name. intros H. apply app_inv_head in H. change (S2L "#0") with ([SHARP] ++ [chr 48]) in H.
        apply app_inv_head in H. congruence.
    + intros t. cbn [c_macro out]. rewrite keep_other; [apply Hcl|].
      intros H. apply (f_equal (@length _)) in H. rewrite kept_len, !app_length, left_len in H. cbn [length] in H. lia.
Qed.
Print Assumptions C88_each_element.

(** A loop that prints its elements: every element, in order, on a line of its own; then the value
    that the index had before. *)
Definition prints : list stmt :=
  [SForeach (S2L "I") [All]; SText [Ref (S2L "I")]; SNext (S2L "I"); SText [Ref (S2L "I")]].
Definition said (e : str) : list event := [NL; NL; Text (e ++ [chr 10])].
Theorem C88_prints_elements : forall (W : Type) (E : env W) (s : rep W) (p : policy)
    (name : str) (args : list str) (before : str),
  forallb simple_word (name :: args) = true -> Z.of_nat (length args) < 2 ^ 30 - 1 -> args <> [] ->
  forallb printable args = true -> forallb texty args = true -> forallb (without [59; 44; 40]) args = true ->
  Z.of_nat (length (joined (chr 59) args)) < 2 ^ 30 ->
  r_rt s = policy_code p -> numbered s -> 0 <= r_depth s -> r_vseps s = S2L ";, " ->
  r_macros s = [(S2L "I", before)] -> texty before = true ->
  e_file E name (c_world (start E s p args)) = Some (map line_of prints) ->
  exists s', ends (fun n => run_report E n (joined BLANK (name :: args))) s (Done 0 s') /\
    r_trace s' = r_trace s ++ [NL] ++ flat_map said args ++ [Text (before ++ [chr 10])] ++ [NL].
Proof.
  intros W E s p name args before Hw Hl Hne Hpr Ht Hsep Hlen Hp Hnum Hd Hv Hm Htb Hf.
  set (c := start E s p args). set (i := S2L "I").
  set (body := fun c : conf W => out (Text (match c_macro c i with Some v => v | None => [] end ++ [chr 10])) c).
  assert (Hcl : forallb (clean (fun a => among a [59; 44; 32])) args = true /\ list_ok (joined (chr 59) args) = true).
  { cbn [forallb] in Hw. apply andb_true_iff in Hw as [_ Hw].
    assert (Hall : forall a, In a args -> simple_word a = true /\ without [59; 44; 40] a = true).
    { intros a Ha. rewrite forallb_forall in Hw, Hsep. auto. }
    split.
    - rewrite forallb_forall. intros a Ha. destruct (Hall a Ha) as [H1 H2]. unfold clean, without in *.
      unfold simple_word in H1. rewrite !andb_true_iff in H1. destruct H1 as [[[H1 H3] _] _]. rewrite H1. cbn [andb].
      rewrite forallb_forall in *. intros x Hx. specialize (H2 x Hx). specialize (H3 x Hx).
      apply negb_true_iff, among_false in H2. apply negb_true_iff, among_false in H3. cbn in H2, H3.
      apply negb_true_iff, among_false. cbn. lia.
    - unfold list_ok. rewrite !andb_true_iff. split; [split|lia].
      + apply joined_all; [reflexivity|exact Hpr].
      + apply joined_all; [reflexivity|]. rewrite forallb_forall. intros a Ha. destruct (Hall a Ha) as [H1 H2].
        unfold simple_word in H1. rewrite !andb_true_iff in H1. destruct H1 as [[[H1 H3] _] _].
        unfold without in H2. rewrite forallb_forall in *. intros x Hx. specialize (H2 x Hx). specialize (H3 x Hx).
        apply negb_true_iff, among_false in H2. apply negb_true_iff, among_false in H3. cbn in H2, H3.
        apply negb_true_iff, among_false. cbn. lia. }
  destruct Hcl as [Hcl Hlo].
  assert (He : elements (joined (chr 59) args) = args) by (apply tokens_back; [reflexivity|exact Hcl]).
  assert (Hmac : forall k, c_macro c k = if str_eqb i k then Some before else None).
  { intros k. unfold c, start. cbn [c_macro]. rewrite Hm. reflexivity. }
  assert (Hbefore : c_macro c i = Some before) by (rewrite Hmac, str_eqb_refl; reflexivity).
  assert (Hval : value (reading_of E c) [All] = joined (chr 59) args).
  { unfold value. cbn [flat_map value1]. rewrite app_nil_r. reflexivity. }
  assert (Href : forall c : conf W, forallb (piece_ok (reading_of E c)) (written (SText [Ref i])) = true) by (intros; reflexivity).
  assert (Hread : forall (c : conf W) v, c_macro c i = Some v -> value (reading_of E c) [Ref i] = v).
  { intros c' v Hc'. unfold value. cbn [flat_map value1]. rewrite app_nil_r. unfold reading_of. cbn [g_macro].
    change (match c_macro c' i with Some v => v | None => wrap PERCENT PERCENT i end = v). rewrite Hc'. reflexivity. }
  pose proof (C88_each_element W E prints 0 2 i [All] body (fun _ => True) c args eq_refl eq_refl eq_refl) as Hloop.
  specialize (Hloop ltac:(lia)). specialize (Hloop ltac:(intros k st Hk; destruct k as [|[|k]]; try lia; injection 1 as <-; reflexivity)).
  assert (Hpf : forallb (piece_ok (reading_of E c)) (written (SForeach i [All])) = true).
  { cbn [written]. rewrite forallb_app. rewrite lits_ok by reflexivity. reflexivity. }
  specialize (Hloop Hpf). rewrite Hval in Hloop. specialize (Hloop Hlo He Hne).
  assert (Hg : goes E prints 0 c 3 (give_back i (c_macro c i) (each i body args (out NL (keep i c))))).
  { apply Hloop; auto.
    - intros k Hk. rewrite Hmac. destruct (str_eqb i k) eqn:Hik; [|reflexivity]. apply str_eqb_iff in Hik. subst k.
      destruct Hk as [H|[[t H]|[t H]]]; apply (f_equal (@length _)) in H; rewrite ?app_length in H; rewrite ?left_len in H; cbn in H; lia.
    - intros c' e _ Hin Hc'. split; [|split; [exact I|reflexivity]].
      eapply goes_cons; [|apply goes_nil]. apply moves_step. unfold step. cbn [prints nth_error]. fold i.
      rewrite Href. cbn [negb]. rewrite (Hread c' e Hc'). rewrite forallb_forall in Ht. rewrite (Ht e Hin).
      unfold body. rewrite Hc'. reflexivity. }
  set (c1 := give_back i (c_macro c i) (each i body args (out NL (keep i c)))) in *.
  assert (Hc1 : c_macro c1 i = Some before).
  { unfold c1, give_back. cbn [c_macro with_macro]. rewrite str_eqb_refl, Hbefore. reflexivity. }
  destruct (C88_report_loops W E s p name args prints 4 (out (Text (before ++ [chr 10])) c1) 0 (out (Text (before ++ [chr 10])) c1))
    as (s' & Hend & Hlv); auto.
  - eapply goes_trans; [exact Hg|]. eapply goes_cons; [|apply goes_nil]. apply moves_step. unfold step. cbn [prints nth_error]. fold i.
    rewrite Href. cbn [negb]. rewrite (Hread c1 before Hc1), Htb. reflexivity.
  - exists s'. split; [exact Hend|]. rewrite (lv_out _ _ _ Hlv).
    assert (Hout : forall es (d : conf W), c_out (each i body es d) = c_out d ++ flat_map said es).
    { clear. induction es as [|e es IH]; intros d; [cbn; rewrite app_nil_r; reflexivity|].
      cbn [each]. rewrite IH. unfold body at 1. rewrite turn_index by reflexivity. unfold turn.
      cbn [c_out out with_macro flat_map said]. rewrite <- !app_assoc. reflexivity. }
    cbn [c_out out]. unfold c1, give_back. cbn [c_out with_macro]. rewrite Hout.
    unfold keep. rewrite Hbefore. cbn [c_out out with_macro c start]. rewrite <- !app_assoc. reflexivity.
Qed.
Print Assumptions C88_prints_elements.
Definition E2 : env Z :=
  {| e_lec := e_lec E0; e_fn := e_fn E0; e_cmd := e_cmd E0;
     e_file := fun _ _ => Some (map line_of prints); e_top := e_top E0 |}.
Example C88_case :
  let s := set_macros [(S2L "I", S2L "before")] (fresh 0) in
  map line_of prints = map S2L ["$foreach I %*%"; "%I%"; "$next I"; "%I%"]%string /\
  forallb stmt_ok prints = true /\
  match run_report E2 40 (S2L "a.rep x yy z") s with
  | Done rc s' => rc = 0 /\ r_trace s' = [NL] ++ flat_map said (map S2L ["x"; "yy"; "z"]%string) ++ [Text (S2L "before" ++ [chr 10]); NL]
  | _ => False
  end.
Proof. vm_compute. repeat split. Qed.

(** C88, not in general: a line that goes on after a backslash in the body of a loop; the search of
    $foreach, one line back at a time, reads the line and its continuation, which leads it again to
    where it was: the report never ends. *)
Definition endless : list str := map S2L ["$foreach I x y"; "a \"; "b"; "$next I"]%string.
Lemma endless_back : forall (W : Type) (E : env W) n (s : rep W) id,
  r_cur s = Some id -> file_get (r_files s) id = Some {| rf_lines := endless; rf_pos := 3 |} -> r_multi s = true ->
  f_back (level E n) (S2L "I") s = Late.
Proof.
  intros W E n. induction n as [|n IH]; intros s id Hc Hf Hm; [reflexivity|].
  cbn [level f_back]. unfold back_F. unfold bind at 1, current. rewrite Hc. unfold bind at 1, file_of. rewrite Hf.
  cbn [rf_pos Nat.leb]. unfold bind at 1. rewrite (set_pos_at id _ _ s Hf). cbn [rf_lines Nat.sub].
  set (s1 := at_ id {| rf_lines := endless; rf_pos := 1 |} s).
  assert (Hf1 : file_get (r_files s1) id = Some {| rf_lines := endless; rf_pos := 1 |}) by (apply file_get_set).
  set (s2 := at_ id {| rf_lines := endless; rf_pos := 3 |} s1).
  assert (Hread : read_line id s1 = Done (Some (S2L "a" ++ [chr 10] ++ S2L "b")) s2).
  { unfold read_line, read_raw, bind, file_of. rewrite Hf1. unfold get. cbn [rf_pos rf_lines].
    change (r_multi s1) with (r_multi s). rewrite Hm.
    change (skipn 1 endless) with (map S2L ["a \"; "b"; "$next I"]%string). cbn [map]. cbv iota.
    change (multiline true [] _) with (S2L "a" ++ [chr 10] ++ S2L "b", 2%nat). cbv iota beta.
    rewrite (set_pos_at id _ _ s1 Hf1). unfold indent, bind, get, ret.
    destruct (r_indent _); reflexivity. }
  unfold bind at 1. rewrite Hread. change (command_of _) with (@None str). cbv iota.
  apply (IH s2 id); [exact Hc|apply file_get_set|exact Hm].
Qed.
Theorem C88_continuation_refuted : forall (W : Type) (E : env W) (s : rep W) id,
  r_cur s = Some id -> file_get (r_files s) id = Some {| rf_lines := endless; rf_pos := 4 |} -> r_multi s = true ->
  never_ends (fun n => foreach_next E (level E n) (Arg (S2L "I") true)) s.
Proof.
  intros W E s id Hc Hf Hm n. unfold foreach_next, with_text. unfold bind at 1, current. rewrite Hc.
  unfold bind at 1, file_of. rewrite Hf. unfold bind at 1. change (vtomsq B_SEPS (S2L "I")) with [S2L "I"].
  change (sqz (S2L "I")) with (S2L "I").
  destruct n as [|n]; [reflexivity|]. cbn [level f_back]. unfold back_F. unfold bind at 1, current. rewrite Hc. unfold bind at 1, file_of. rewrite Hf.
  cbn [rf_pos Nat.leb]. unfold bind at 1. rewrite (set_pos_at id _ _ s Hf). cbn [rf_lines Nat.sub].
  set (s1 := at_ id {| rf_lines := endless; rf_pos := 2 |} s).
  assert (Hf1 : file_get (r_files s1) id = Some {| rf_lines := endless; rf_pos := 2 |}) by (apply file_get_set).
  set (s2 := at_ id {| rf_lines := endless; rf_pos := 3 |} s1).
  assert (Hread : read_line id s1 = Done (Some (S2L "b")) s2).
  { unfold read_line, read_raw, bind, file_of. rewrite Hf1. unfold get. cbn [rf_pos rf_lines].
    change (r_multi s1) with (r_multi s). rewrite Hm.
    change (skipn 2 endless) with (map S2L ["b"; "$next I"]%string). cbn [map]. cbv iota.
    change (multiline true [] _) with (S2L "b", 1%nat). cbv iota beta.
    rewrite (set_pos_at id _ _ s1 Hf1). unfold indent, bind, get, ret.
    destruct (r_indent _); reflexivity. }
  unfold bind at 1. rewrite Hread. change (command_of _) with (@None str). cbv iota.
  fold (level E n). assert (Hb : f_back (level E n) (S2L "I") s2 = Late) by (apply (endless_back W E n s2 id); [exact Hc|apply file_get_set|exact Hm]).
  match goal with |- (match ?x with _ => _ end) = _ => change x with (f_back (level E n) (S2L "I") s2) end. rewrite Hb. reflexivity.
Qed.
Print Assumptions C88_continuation_refuted.
Example C88_continuation_case :
  let E := {| e_lec := e_lec E0; e_fn := e_fn E0; e_cmd := e_cmd E0; e_file := fun _ _ => Some endless; e_top := e_top E0 |} in
  r_multi (fresh 0) = true /\ run_report E 200 (S2L "a.rep") (fresh 0) = Late.
Proof. vm_compute. split; reflexivity. Qed.

(** C88, not in general: an index of 12 characters is too long for the name of the macro with the
    rest of the list, which $define cuts at 20 characters: the index is never an element. *)
Definition rep_of (lines : list string) : env Z :=
  {| e_lec := e_lec E0; e_fn := e_fn E0; e_cmd := e_cmd E0; e_file := fun _ _ => Some (map S2L lines); e_top := e_top E0 |}.
Definition printed (lines : list string) (args : string) : option (list event) :=
  match run_report (rep_of lines) 100 (S2L "a.rep" ++ S2L args) (fresh 0) with
  | Done _ s => Some (filter (fun e => match e with Text [_] => false | _ => true end) (r_trace s))
  | _ => None
  end.
Definition ln (t : string) : event := Text (S2L t ++ [chr 10]).
Theorem C88_long_index_refuted :
  printed ["$foreach ABCDEFGHIJKL x y"; "in %ABCDEFGHIJKL%"; "$return"]%string "" =
  Some [ln "in %FOREACH__ABCDEFGHIJKL%"].
Proof. vm_compute. reflexivity. Qed.
Print Assumptions C88_long_index_refuted.
(** C88, not in general: an element with an open parenthesis is cut in two; a quoted element also. *)
Theorem C88_parenthesis_refuted :
  printed ["$foreach I f(x) y"; "in %I%"; "$next I"]%string "" = Some [ln "in f"; ln "in x)"; ln "in y"] /\
  printed ["$foreach I ""a b"" y"; "in %I%"; "$next I"]%string "" = Some [ln "in a"; ln "in b"; ln "in y"].
Proof. vm_compute. split; reflexivity. Qed.
Print Assumptions C88_parenthesis_refuted.
(** C88, not in general: without $next, a loop without element skips the rest of the report; with
    one element its body, that is the rest of the report, is executed. *)
Theorem C88_no_next_refuted :
  printed ["$foreach I %*%"; "in %I%"; "end"]%string "" = Some [] /\
  printed ["$foreach I %*%"; "in %I%"; "end"]%string " x" = Some [ln "in x"; ln "end"].
Proof. vm_compute. split; reflexivity. Qed.
Print Assumptions C88_no_next_refuted.
(** Two loops, one in the other, and a jump out of the body to $next. *)
Example C88_nested_case :
  printed ["$foreach I a b c"; "$foreach J %*%"; "$goto out @equal(%I%%J%,b1)"; "%I%%J%"; "$label out"; "$next J"; "$next I"; "%I%"]%string " 1 2" =
  Some [ln "a1"; ln "a2"; ln "b2"; ln "c1"; ln "c2"; ln "%I%"].
Proof. vm_compute. reflexivity. Qed.
