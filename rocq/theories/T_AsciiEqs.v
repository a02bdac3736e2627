(** Property C96: equations saved in an ASCII file and loaded again. *)
From Coq Require Import ZArith Ascii String List Bool Lia Sorted Floats.SpecFloat.
From Verif Require Import M_Base M_Time M_Names M_Lex M_Double M_Decimal M_Kdb M_Ascii M_AsciiEqs S_Time S_Names S_Ascii S_AsciiEqs
  L_Time L_Names L_Ascii L_Ascii2 L_Round L_Round2 L_Round3 L_Round4 L_Round5 L_Ascii3 T_Ascii T_Ascii2 L_AsciiEqs.
Import ListNotations.
Open Scope Z_scope.

Lemma good_of q : results_savable q -> good q.
Proof.
  unfold results_savable, good. destruct (sampl q) as [s|]; [|tauto]. intros (A & B & C & _ & T). split; [exact A|]. split; [exact B|]. split; [exact C|].
  intros x Hx. assert (I : saved_position (snd x)) by (exact (proj1 (saved_positions _) (in_map snd _ _ Hx))). destruct (T _ I) as [M|M].
  - apply (measured_writable 8); [lia|exact M].
  - apply (missing_writable 8), M.
Qed.
Lemma test_kept x : measured x \/ missing x -> test_saved x (if is_printed x then to_float (stored 8 x) else S754_zero false).
Proof.
  intros [[->|C]|M].
  - left. split; [left; reflexivity|reflexivity].
  - right. split; [exact C|]. exists (stored 8 x). assert (P8 : 2 <= 8 <= 15) by lia. split; [exact (proj1 (proj2 (stored_common 8 x P8 C)))|].
    assert (P : is_printed x = true). { unfold is_printed. rewrite (common_num x C). destruct x as [s|s| |s m e]; try (exfalso; exact (proj1 C)). destruct s; reflexivity. }
    rewrite P. reflexivity.
  - left. split; [right; exact M|]. unfold is_printed, missing in *. rewrite M, andb_false_r. reflexivity.
Qed.

(** All the fields of every equation come back, with the tests of the estimation as 8 digits allow. *)
Theorem C96_equations_partial : forall compiles db, database EQUATIONS db -> no_sharp db ->
  (forall n q, In (n, q) db -> text_savable compiles n q /\ results_savable q) ->
  exists db', load_equations compiles (save_equations db) = Done (true, db') /\ map fst db' = map fst db /\
    Forall2 (fun x y => same_but_tests (snd x) (snd y) /\ tests_saved (tests (snd x)) (tests (snd y))) db db'.
Proof.
  intros compiles db D NS H. assert (Sv : Forall (savable compiles) db).
  { apply Forall_forall. intros [n q] Hx. destruct (H n q Hx) as [A B]. split; [exact A|apply good_of, B]. }
  exists (map (fun x => (fst x, image (snd x))) db). split; [apply load_equations_ok; assumption|]. split; [rewrite map_map; reflexivity|].
  clear D NS Sv. induction db as [|[n q] db IH]; [constructor|]. constructor; [|apply IH; intros m r Hr; apply H; right; exact Hr]. cbn [snd].
  destruct (H n q (or_introl eq_refl)) as [_ R]. split; [repeat split|]. unfold image, with_tests, results_savable in *. cbn [tests].
  destruct (sampl q) as [s|].
  - destruct R as (_ & _ & _ & _ & T). destruct (loaded_is (tests q)) as [L N]. split; [exact L|]. intros i _. destruct (N i) as [N1 N2]. split; [|exact N2].
    intros I. rewrite N1 by exact I. apply test_kept, T, I.
  - destruct R as [_ ->]. split; [reflexivity|]. intros i _. rewrite !nth_none. split; [intros _; left; split; [left; reflexivity|reflexivity]|reflexivity].
Qed.
(** A test that is kept: 0, or a float with at most 8 digits. *)
Definition exact_test (x : dbl) : Prop := x = S754_zero false \/ exact 8 x /\ to_float x = x.
(** Equations that are not estimated, or with such tests: the same database. *)
Theorem C96_exact_partial : forall compiles db, database EQUATIONS db -> no_sharp db ->
  (forall n q, In (n, q) db -> text_savable compiles n q /\
     match sampl q with
     | None => date q = 0 /\ tests q = no_tests
     | Some s => sample_ok s /\ years s /\ 0 <= date q < 10 ^ 9 /\ length (tests q) = 20%nat /\
                 forall i, let x := nth i (tests q) (S754_zero false) in (saved_position i -> exact_test x) /\ (~ saved_position i -> x = S754_zero false)
     end) ->
  load_equations compiles (save_equations db) = Done (true, db).
Proof.
  intros compiles db D NS H. rewrite load_equations_ok; [|exact D|exact NS|].
  - do 2 f_equal. rewrite <- (map_id db) at 2. apply map_ext_in. intros [n q] Hx. destruct (H n q Hx) as [_ R]. cbn [fst snd]. f_equal. unfold image, with_tests.
    destruct q as [l m s c b i d t]. cbn [sampl lec method comment block instr date tests] in *. f_equal. destruct s as [s|]; [|symmetry; apply R].
    destruct R as (_ & _ & _ & Lt & T). destruct (loaded_is t) as [L N]. apply nth_ext with (d := S754_zero false) (d' := S754_zero false); [congruence|].
    intros j Hj. destruct (N j) as [N1 N2]. destruct (T j) as [T1 T2]. destruct (in_dec Nat.eq_dec j [1; 2; 3; 4; 6; 7; 8; 9; 10]%nat) as [I|I].
    + rewrite N1 by exact I. destruct (T1 I) as [->|[E F]]; [reflexivity|]. destruct (exact_writable 8 _ ltac:(lia) E) as [_ St]. rewrite St, F.
      destruct (is_printed _) eqn:P; [reflexivity|]. destruct E as [E1 E2]. unfold is_printed in P. rewrite E1, andb_true_r in P. apply negb_false_iff in P.
      destruct E2 as [->|[E2|(y & E2 & E3)]]; [reflexivity| |].
      * pose proof (decimal_printed 8 false _ ltac:(lia) E2) as (u & [_ _ _ (m' & e' & _ & _ & X)] & Y). unfold sgn in *. rewrite Y in X. rewrite X in P. destruct (negative _); discriminate P.
      * pose proof (decimal_printed 8 true _ ltac:(lia) E2) as (u & [_ _ _ (m' & e' & _ & _ & X)] & Y). unfold sgn in *. rewrite <- E3 in X, Y. rewrite Y in X. rewrite X in P. destruct (negative _); discriminate P.
    + rewrite N2, T2 by exact I. reflexivity.
  - apply Forall_forall. intros [n q] Hx. destruct (H n q Hx) as [A B]. split; [exact A|]. cbn [snd]. unfold good. destruct (sampl q) as [s|]; [|apply B].
    destruct B as (B1 & B2 & B3 & _ & T). split; [exact B1|]. split; [exact B2|]. split; [exact B3|]. intros x Hx'. destruct (T (snd x)) as [T1 _].
    destruct (T1 (proj1 (saved_positions _) (in_map snd _ _ Hx'))) as [->|[E _]]; [intros _; left; reflexivity|]. apply (exact_writable 8 _ ltac:(lia) E).
Qed.

(** * Cases *)
Definition any_lec (n t : str) : bool := true.
Definition half : dbl := d_dec 5 1.
Definition put_tests (l : list (nat * dbl)) : list dbl := fold_left (fun t x => set_nth t (fst x) (snd x)) l no_tests.
Definition eq1 : equation := mkEq (S2L "(A / B[-1]) := a1 + a2 * C") 1 (Some smp3) (S2L "says ""yes""") (S2L "A;D") (S2L "X;ln Y") 20240618
  (put_tests [(1%nat, half); (2%nat, SFopp half); (9%nat, d_ofZ 2)]).
Definition eq2 : equation := mkEq (S2L "B :=" ++ chr 10 :: S2L "d C + 1") 0 None [] (S2L "B") [] 0 no_tests.
Definition ex_eqs : list (str * equation) := [(S2L "A", eq1); (S2L "BLOCK", eq2)].
Lemma texts_eq1 : text_savable any_lec (S2L "A") eq1 /\ text_savable any_lec (S2L "BLOCK") eq2.
Proof.
  assert (U : forall t, forallb (fun c => negb (code c =? 34) && negb (code c =? 92)) t = true -> unquoted t).
  { intros t H. rewrite forallb_forall in H. split; intros X; apply H in X; discriminate X. }
  split; constructor.
  - split; [is_plain|]. split; [apply U; reflexivity|]. split; [left|split; [discriminate|reflexivity]]. split; [apply Nat.leb_le; reflexivity|]. split; [cbn; intuition discriminate|]. intros c u E. injection E as <- _. discriminate.
  - cbn. lia.
  - split; [is_plain|]. split; [apply U; reflexivity|discriminate].
  - split; [is_plain|reflexivity].
  - split; [is_plain|]. split; [apply U; reflexivity|right; discriminate].
  - split; [is_plain|]. split; [apply U; reflexivity|]. split; [right; cbn; tauto|split; [discriminate|reflexivity]].
  - cbn. lia.
  - split; [is_plain|]. split; [apply U; reflexivity|discriminate].
  - split; [is_plain|reflexivity].
  - split; [is_plain|]. split; [apply U; reflexivity|left; reflexivity].
Qed.
Example C96_case : database EQUATIONS ex_eqs /\ no_sharp ex_eqs /\ (forall n q, In (n, q) ex_eqs -> text_savable any_lec n q) /\
  load_equations any_lec (save_equations ex_eqs) = Done (true, ex_eqs).
Proof.
  split; [split; [repeat constructor|repeat constructor; apply regex_iff; reflexivity]|]. split; [intros n [<-|[<-|[]]]; cbn; intuition discriminate|].
  split; [intros n q [E|[E|[]]]; injection E as <- <-; apply texts_eq1|]. vm_compute. reflexivity.
Qed.
(** The float nearest to 1/3, with NA for another test: C96_equations_partial applies. *)
Definition eq3 : equation := mkEq (lec eq1) 1 (Some smp3) (comment eq1) (block eq1) (instr eq1) 20240618 (put_tests [(1%nat, to_float third); (6%nat, d_na); (10%nat, SFopp half)]).
Example C96_results_ex : results_savable eq3 /\ results_savable eq2 /\ text_savable any_lec (S2L "A") eq3.
Proof.
  split; [|split; [split; reflexivity|]].
  - split; [exact (proj1 smp3_ok)|]. split; [split; cbn; lia|]. split; [cbn; lia|]. split; [reflexivity|]. intros i H. cbv zeta.
    unfold saved_position in H. cbn [In] in H.
    repeat (destruct H as [<-|H]; [first [left; left; reflexivity|left; right; is_common|right; reflexivity]|]). contradiction.
  - destruct (proj1 texts_eq1) as [A B C D E]. constructor; assumption.
Qed.
(** An equation without block gives a file that load refuses. *)
Theorem C96_block_refuted : forall compiles q, block q = [] -> text_savable compiles (S2L "A") (mkEq (lec q) (method q) (sampl q) (comment q) (S2L "A") (instr q) (date q) (tests q)) ->
  load_equations compiles (save_equations [(S2L "A", q)]) = Done (false, []).
Proof.
  intros compiles q Eb [(SL1 & SL2 & SL3 & SL4 & SL5) SM _ _ _]. cbn [lec method] in *. unfold load_equations, opened.
  assert (M : exists kw, method_text (method q) = kw /\ forallb (fun c => 32 <=? code c) kw = true).
  { assert (C : method q = 0 \/ method q = 1 \/ method q = 2 \/ method q = 3 \/ method q = 4) by lia. destruct C as [-> |[-> |[-> |[-> | ->]]]]; eexists; split; reflexivity. }
  destruct M as (kw & Em & Pk).
  set (tl := match trim (comment q) with [] => [] | c => [S2L "COMMENT " ++ quoted c] end ++ match trim (instr q) with [] => [] | _ => [S2L "INSTRUMENTS " ++ QUOTE :: instr q ++ [QUOTE]] end ++
    match sampl q with None => [] | Some s => (S2L "SAMPLE " ++ period_to_string (s_start s) ++ SP :: period_to_string (s_end s)) :: (S2L "DATE " ++ to_string (date q)) :: flat_map (test_text q) TESTS end).
  assert (Ln : exists r, delivered 0 (save_equations [(S2L "A", q)]) =
     S2L "A" ++ SP :: S2L "{" ++ LF :: flat_map shown [lec_text q; kw; S2L "BLOCK " ++ [QUOTE; QUOTE]] ++ r).
  { eexists. change (save_equations [(S2L "A", q)]) with ((S2L "A" ++ SP :: print_eq q) ++ []). rewrite app_nil_r, print_eq_lines.
    replace (lec_text q :: entry_texts q) with ([lec_text q; kw; S2L "BLOCK " ++ [QUOTE; QUOTE]] ++ tl) by (unfold entry_texts; rewrite Em, Eb; reflexivity).
    rewrite flat_map_app.
    replace (S2L "A" ++ SP :: S2L "{" ++ [LF] ++ (flat_map line [lec_text q; kw; S2L "BLOCK " ++ [QUOTE; QUOTE]] ++ flat_map line tl) ++ S2L "}" ++ [LF])
      with (S2L "A {" ++ LF :: flat_map line [lec_text q; kw; S2L "BLOCK " ++ [QUOTE; QUOTE]] ++ flat_map line tl ++ S2L "}" ++ [LF])
      by (repeat progress (rewrite <- ?app_assoc; cbn [app S2L list_ascii_of_string]); reflexivity).
    rewrite delivered_line by (apply (key_printable (S2L "A {") []); [reflexivity|constructor]). rewrite delivered_lines; [reflexivity|].
    constructor; [apply quote_printable, printable_plain, SL1|]. constructor; [rewrite <- (app_nil_r kw); apply key_printable; [exact Pk|constructor]|].
    constructor; [apply key_printable; [reflexivity|]; exact (quote_printable [] (Forall_nil _))|constructor]. }
  destruct Ln as (r & ->). unfold fuel_of. cbn [rest]. match goal with |- context [S (S ?a)] => generalize (S a) end. intros n. cbn [load_loop].
  change (S2L "A" ++ SP :: ?z) with ([] ++ S2L "A" ++ SP :: z).
  rewrite (lex_name EQUATIONS [] [] (S2L "A") _ Y_NONE []); [|constructor|apply regex_iff; reflexivity|cbn; intuition discriminate|tauto]. cbn [ibind text].
  unfold read_equation, read_eq.
  change (SP :: S2L "{" ++ ?z) with ([SP] ++ chr 123 :: z). rewrite lex_brace by (try lia; apply blanks1; reflexivity). cbn [ibind]. change (str_eqb [chr 123] (S2L "{")) with true. cbv iota.
  unfold read_str. cbn [flat_map]. unfold shown at 1. unfold lec_text.
  match goal with |- context [LF :: (?a ++ ?b) ++ r] => replace (LF :: (a ++ b) ++ r) with ((LF :: repeat SP 8) ++ (QUOTE :: lec q ++ [QUOTE]) ++ LF :: b ++ r)
    by (repeat progress (rewrite <- ?app_assoc; cbn [app]); reflexivity) end.
  rewrite lex_quoted; [|constructor; [reflexivity|apply blanks8]|exact SL1|exact SL2]. cbn [ibind text].
  assert (Wr : wrap (lec q) 60 = lec q) by (destruct SL3 as [S|S]; [apply wrap_short; [apply SL1|exact S]|apply wrap_lf, S]). rewrite Wr. destruct (lec q) as [|c u]; [congruence|].
  unfold fuel_of. cbn [rest length]. match goal with |- context [entries (S (S ?a))] => generalize a end. intros m.
  assert (E1 : entry kw (with_lec (c :: u)) (mkEq (c :: u) (method q) None [] [] [] 0 no_tests)) by (rewrite <- Em; apply (entry_method (with_lec (c :: u))), SM).
  unfold shown at 1.
  match goal with |- context [LF :: ((repeat SP 8 ++ kw ++ [LF]) ++ ?b) ++ r] => replace (LF :: ((repeat SP 8 ++ kw ++ [LF]) ++ b) ++ r) with ((LF :: repeat SP 8) ++ kw ++ LF :: b ++ r)
    by (repeat progress (rewrite <- ?app_assoc; cbn [app]); reflexivity) end.
  rewrite app_nil_r.
  destruct (E1 (S m) (shown (S2L "BLOCK " ++ [QUOTE; QUOTE]) ++ r) (LF :: repeat SP 8) Y_STRING (c :: u)) as (ty & w & ->); [constructor; [reflexivity|apply blanks8]|].
  cbn [entries]. unfold shown.
  match goal with |- context [lex KE_TABLE (mkY ?a _ _ false)] => replace a with ((LF :: repeat SP 8) ++ S2L "BLOCK" ++ SP :: QUOTE :: QUOTE :: LF :: r)
    by (repeat progress (rewrite <- ?app_assoc; cbn [app S2L list_ascii_of_string]); reflexivity) end.
  rewrite lex_keyword; [|constructor; [reflexivity|apply blanks8]|is_keyword|reflexivity]. cbn [ibind].
  change (str_eqb (S2L "BLOCK") (S2L "}")) with false. change (str_eqb (S2L "BLOCK") (S2L "DATE")) with false. change (str_eqb (S2L "BLOCK") (S2L "SAMPLE")) with false. cbv iota.
  change (existsb (str_eqb (S2L "BLOCK")) (map S2L ["BLOCK"; "COMMENT"; "INSTRUMENTS"]%string)) with true. cbv iota. unfold read_str.
  change (SP :: QUOTE :: QUOTE :: LF :: r) with ([SP] ++ (QUOTE :: [] ++ [QUOTE]) ++ LF :: r).
  rewrite lex_quoted; [reflexivity|apply blanks1; reflexivity|split; [constructor|split; [intros a x b E; destruct a; discriminate E|cbn; lia]]|split; intros []].
Qed.
Definition an_eq (t : list dbl) : equation := mkEq (S2L "A := B") 0 (Some smp3) [] (S2L "A") [] 0 t.
(** The F test of a perfect fit is infinite: the file cannot be read again. *)
Theorem C96_infinite_refuted : load_equations any_lec (save_equations [(S2L "A", an_eq (put_tests [(6%nat, S754_infinity false); (7%nat, d_ofZ 1)]))]) = Undefined.
Proof. vm_compute. reflexivity. Qed.
(** 8 digits are not enough for a float. *)
Definition x1000 : dbl := d_add (d_ofZ 1000) (S754_finite false 1 (-14)).
Theorem C96_precision_refuted : to_float x1000 = x1000 /\ exists q, load_equations any_lec (save_equations [(S2L "A", an_eq (put_tests [(2%nat, x1000)]))]) = Done (true, [(S2L "A", q)]) /\
  nth 2 (tests q) (S754_zero false) = d_add (d_ofZ 1000) (S754_finite false 1 (-13)).
Proof. split; [vm_compute; reflexivity|]. eexists. split; vm_compute; reflexivity. Qed.
(** The correlation and the standard error in percents are lost; so is the date of an equation without sample. *)
Theorem C96_lost_refuted : exists q r, load_equations any_lec (save_equations [(S2L "A", an_eq (put_tests [(0%nat, half); (5%nat, half)])); (S2L "B", mkEq (S2L "B := A") 0 None [] (S2L "B") [] 20240618 no_tests)]) = Done (true, [(S2L "A", q); (S2L "B", r)]) /\
  tests q = no_tests /\ date r = 0.
Proof. eexists. eexists. split; [|split]; vm_compute; reflexivity. Qed.
(** A quote in the formula cuts it: the rest of the file is read as entries. *)
Theorem C96_quote_refuted : exists l, load_equations any_lec (save_equations [(S2L "A", mkEq (S2L "A := B /* ""x"" */") 0 None [] (S2L "A") [] 0 no_tests)]) = l /\ l <> Done (true, [(S2L "A", mkEq (S2L "A := B /* ""x"" */") 0 None [] (S2L "A") [] 0 no_tests)]).
Proof. eexists. split; [vm_compute; reflexivity|]. discriminate. Qed.

Print Assumptions C96_equations_partial.
Print Assumptions C96_exact_partial.
Print Assumptions C96_block_refuted.
Print Assumptions C96_infinite_refuted.
Print Assumptions C96_precision_refuted.
Print Assumptions C96_lost_refuted.
Print Assumptions C96_quote_refuted.
