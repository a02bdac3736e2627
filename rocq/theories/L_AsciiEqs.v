(** Lemmas on the ASCII files of equations. *)
From Coq Require Import ZArith Ascii String List Bool Lia Sorted Floats.SpecFloat.
From Verif Require Import M_Base M_Time M_Names M_Lex M_Compile M_Bytes M_Exec M_Double M_Decimal M_Kdb M_Ascii M_AsciiEqs S_Time S_Names S_Ascii S_AsciiEqs
  L_Time L_Names L_Kdb L_Decimal L_Round L_Round2 L_Round3 L_Round4 L_Round5 L_Ascii L_Ascii2 L_Ascii3 T_Ascii T_Ascii2.
Import ListNotations.
Open Scope Z_scope.

(** * Tokens *)
Lemma existsb_in w keys : In w keys -> existsb (str_eqb w) keys = true.
Proof. intros H. apply existsb_exists. exists w. split; [exact H|apply str_eqb_refl]. Qed.
Lemma lex_key keys a c w r t0 w0 : blanks a -> word_first c = true -> forallb is_word_char w = true -> word_ends r ->
  Z.of_nat (length (c :: w)) < 40000 -> In (c :: w) keys ->
  lex keys (mkY (a ++ (c :: w) ++ r) t0 w0 false) = Done (L_KEY (c :: w), mkY r Y_WORD (c :: w) false).
Proof.
  intros B C W E L K. destruct (word_first_not c C) as (A1 & A2 & A3 & A4 & A5 & A6).
  unfold lex. cbn [lex_loop]. unfold yread. cbn [reread rest].
  rewrite (skip_blanks a _ B). cbn [app skip_spaces]. rewrite A1, A2, A3, A4, A5, A6.
  unfold word_first in C. rewrite C.
  change (c :: w ++ r) with ((c :: w) ++ r). rewrite span_app; [| |exact E].
  - unfold fits, TEXT_MAX. replace (Z.of_nat (length (c :: w)) <? 40000) with true by lia. cbn [ibind token text].
    rewrite existsb_in by exact K. reflexivity.
  - cbn. rewrite W, andb_true_r. unfold is_word_char. apply orb_true_iff in C as [C|C]; rewrite C; [reflexivity|].
    rewrite !orb_true_r. reflexivity.
Qed.
(** The keywords that are words. *)
Definition keyword (w : str) : Prop := In w KE_TABLE /\ exists c u, w = c :: u /\ word_first c = true /\ forallb is_word_char u = true /\ Z.of_nat (length w) < 40000.
Lemma lex_keyword a w c r t0 w0 : blanks a -> keyword w -> isspace c = true ->
  lex KE_TABLE (mkY (a ++ w ++ c :: r) t0 w0 false) = Done (L_KEY w, mkY (c :: r) Y_WORD w false).
Proof.
  intros B (I & d & u & -> & F & W & L) S. apply lex_key; try assumption. intros x v E. injection E as <- _.
  unfold is_word_char. unfold isspace in S. unfold scr_is_alpha, is_us, isalpha, isupper, islower, isdigit, oem_letters. cbn [existsb]. lia.
Qed.
Lemma lex_brace a (z : Z) r t0 w0 : blanks a -> z = 123 \/ z = 125 ->
  lex KE_TABLE (mkY (a ++ chr z :: r) t0 w0 false) = Done (L_KEY [chr z], mkY r Y_SPECIAL [chr z] false).
Proof.
  intros B H. unfold lex. cbn [lex_loop]. unfold yread. cbn [reread rest]. rewrite (skip_blanks a _ B). destruct H as [-> | ->]; reflexivity.
Qed.
Lemma lex_quoted a t r t0 w0 : blanks a -> plain t -> unquoted t ->
  lex KE_TABLE (mkY (a ++ (QUOTE :: t ++ [QUOTE]) ++ r) t0 w0 false) = Done (L_TYPE Y_STRING, mkY r Y_STRING t false).
Proof.
  intros B (_ & N & L) U. pose proof (lex_string KE_TABLE a t r t0 w0 B N L) as H. unfold quoted in H. rewrite escaped_unquoted in H by exact U. exact H.
Qed.
Lemma read_number_text keys p x a r t0 w0 : blanks a -> d_num x = true -> x <> S754_zero false -> writable p x -> number_end r ->
  exists y w, read_real keys (mkY (a ++ print_g p x ++ r) t0 w0 false) = Done (stored p x, mkY r y w false).
Proof.
  intros B NX NZ W N. destruct (W NX) as [->|(t & [PT OK LEN (m & e & SC & NO & ST)])]; [congruence|].
  rewrite PT, ST. destruct (negative x); cbn [M_Decimal.sign].
  - unfold read_real. cbn [rest]. cbn [app]. set (n := length _). cbn [real_loop].
    destruct (lex_dash keys a (text_of (chr 101) t ++ r) t0 w0 B) as (l & E & HL). rewrite E. cbn [ibind text].
    change (code (chr 45) =? 45) with true. cbv iota.
    destruct (read_minus n keys [] t r Y_SPECIAL [chr 45] m e ltac:(constructor) OK (LEN _) N SC NO) as (y & w & F).
    exists y, w. destruct HL as [-> | ->]; [exact F|]. change (str_eqb [chr 45] (S2L "-")) with true. exact F.
  - unfold read_real. cbn [rest]. set (n := length _).
    destruct (read_positive (S n) keys a t r t0 w0 B OK (LEN _) N) as (y & w & E). exists y, w. rewrite <- SC. exact E.
Qed.
Lemma read_date z a r t0 w0 : blanks a -> 0 <= z < 10 ^ 9 -> number_end r ->
  exists w, read_long (mkY (a ++ to_string z ++ r) t0 w0 false) = Done (z, mkY r Y_LONG w false).
Proof.
  intros B Z N. unfold read_long. cbn [rest long_loop]. destruct (dec_nt z ltac:(lia)) as (O1 & T1 & T1').
  pose proof (to_string_short z 9 Z ltac:(lia)) as L.
  assert (I : is_long (mkNT (to_string z) [] None) = true) by (unfold is_long; cbn [fp ep]; rewrite T1'; lia).
  pose proof (lex_number KE_TABLE a _ r t0 w0 B O1 ltac:(rewrite T1'; lia) N) as X. rewrite T1 in X. rewrite X, I. cbn [ibind text]. rewrite T1'.
  exists (to_string z). do 2 f_equal. unfold long_of. apply to_string_spec. lia.
Qed.

(** * The lines between the braces *)
Definition test_text (q : equation) (x : str * nat) : list str :=
  let v := nth (snd x) (tests q) (S754_zero false) in
  if negb (SFeqb v (S754_zero false)) && d_num v then [fst x ++ SP :: print_g 8 v] else [].
Definition method_text (m : Z) : str := match List.find (fun x => snd x =? m) METHODS with Some x => fst x | None => S2L "/* UNKNOWN ESTIMATION METHOD: " ++ to_string m ++ S2L "*/" end.
Definition entry_texts (q : equation) : list str :=
  method_text (method q) :: (S2L "BLOCK " ++ QUOTE :: block q ++ [QUOTE]) ::
  match trim (comment q) with [] => [] | c => [S2L "COMMENT " ++ quoted c] end ++
  match trim (instr q) with [] => [] | _ => [S2L "INSTRUMENTS " ++ QUOTE :: instr q ++ [QUOTE]] end ++
  match sampl q with
  | None => []
  | Some s => (S2L "SAMPLE " ++ period_to_string (s_start s) ++ SP :: period_to_string (s_end s)) :: (S2L "DATE " ++ to_string (date q)) :: flat_map (test_text q) TESTS
  end.
Definition lec_text (q : equation) : str := QUOTE :: lec q ++ [QUOTE].
Lemma print_eq_lines q : print_eq q = S2L "{" ++ [LF] ++ flat_map line (lec_text q :: entry_texts q) ++ S2L "}" ++ [LF].
Proof.
  unfold print_eq, entry_texts, lec_text. do 2 f_equal. cbn [flat_map]. rewrite !flat_map_app, <- !app_assoc. f_equal. f_equal.
  { unfold method_line, method_text. destruct (List.find _ _); reflexivity. }
  f_equal. f_equal; [destruct (trim (comment q)); cbn [flat_map]; rewrite ?app_nil_r; reflexivity|]. f_equal; [destruct (trim (instr q)); cbn [flat_map]; rewrite ?app_nil_r; reflexivity|].
  f_equal. destruct (sampl q) as [s|]; [|reflexivity]. cbn [flat_map]. f_equal. f_equal.
  induction TESTS as [|x l IH]; [reflexivity|]. cbn [flat_map]. rewrite flat_map_app, IH. f_equal. unfold test_line, test_text. destruct (negb _ && _); cbn [flat_map]; rewrite ?app_nil_r; reflexivity.
Qed.
(** As delivered: a tab at the beginning of a line gives eight blanks. *)
Definition shown (t : str) : str := repeat SP 8 ++ t ++ [LF].
Definition body (q : equation) : str := S2L "{" ++ [LF] ++ flat_map shown (lec_text q :: entry_texts q) ++ S2L "}" ++ [LF].
Lemma delivered_line t : forall col r, printable t -> delivered col (t ++ LF :: r) = t ++ LF :: delivered 0 r.
Proof.
  induction t as [|c t IH]; intros col r P; [reflexivity|]. inversion P as [|? ? Hc Ht]; subst. cbn [app delivered]. destruct Hc as [Hc|Hc].
  - replace (32 <=? code c) with true by lia. rewrite IH by exact Ht. reflexivity.
  - replace (32 <=? code c) with false by lia. replace (code c =? 9) with false by lia. replace (code c =? 10) with true by lia. rewrite IH by exact Ht. reflexivity.
Qed.
Lemma delivered_lines l : forall r, Forall printable l -> delivered 0 (flat_map line l ++ r) = flat_map shown l ++ delivered 0 r.
Proof.
  induction l as [|t l IH]; intros r P; [reflexivity|]. inversion P as [|? ? Pt Pl]; subst. cbn [flat_map].
  replace ((line t ++ flat_map line l) ++ r) with (TAB :: t ++ LF :: flat_map line l ++ r) by (unfold line; cbn [app]; rewrite <- !app_assoc; reflexivity).
  transitivity (repeat SP 8 ++ delivered 8 (t ++ LF :: flat_map line l ++ r)); [reflexivity|].
  rewrite delivered_line by exact Pt. rewrite IH by exact Pl. unfold shown at 2. rewrite <- !app_assoc. reflexivity.
Qed.
Lemma delivered_file l : Forall (fun x => printable (fst x) /\ Forall printable (lec_text (snd x) :: entry_texts (snd x))) l ->
  delivered 0 (save_equations l) = file_of body l.
Proof.
  induction l as [|[n q] l IH]; intros H; [reflexivity|]. inversion H as [|? ? [Hn Hq] Hl]; subst. cbn [fst snd] in *.
  set (ls := lec_text q :: entry_texts q) in *.
  transitivity (delivered 0 ((n ++ SP :: S2L "{") ++ LF :: flat_map line ls ++ S2L "}" ++ LF :: save_equations l)).
  { f_equal. change (save_equations ((n, q) :: l)) with ((n ++ SP :: print_eq q) ++ save_equations l). rewrite print_eq_lines. fold ls.
    repeat progress (rewrite <- ?app_assoc; cbn [app S2L list_ascii_of_string]). reflexivity. }
  rewrite delivered_line by (apply printable_app; [exact Hn|]; constructor; [left; vm_compute; discriminate|]; constructor; [left; vm_compute; discriminate|constructor]).
  rewrite delivered_lines by exact Hq. rewrite (delivered_line (S2L "}")) by (constructor; [left; vm_compute; discriminate|constructor]). rewrite (IH Hl).
  change (file_of body ((n, q) :: l)) with ((n ++ SP :: body q) ++ file_of body l). unfold body at 2. fold ls.
  repeat progress (rewrite <- ?app_assoc; cbn [app S2L list_ascii_of_string]). reflexivity.
Qed.

(** * Reading the lines *)
(** The line [t] changes [q] to [q']. *)
Definition entry (t : str) (q q' : equation) : Prop := forall k r b ty w, blanks b ->
  exists ty' w', entries (S k) q (mkY (b ++ t ++ LF :: r) ty w false) = entries k q' (mkY (LF :: r) ty' w' false).
Inductive chain : list str -> equation -> equation -> Prop :=
| chain_nil q : chain [] q q
| chain_cons t l q q1 q2 : entry t q q1 -> chain l q1 q2 -> chain (t :: l) q q2.
Lemma chain_app a b q q1 q2 : chain a q q1 -> chain b q1 q2 -> chain (a ++ b) q q2.
Proof. intros H. induction H as [|t l p p1 p2 E C IH]; intros Hb; [exact Hb|]. cbn [app]. econstructor; [exact E|apply IH, Hb]. Qed.
Lemma blanks8 : blanks (repeat SP 8).
Proof. repeat constructor. Qed.
Lemma entries_chain l q q' : chain l q q' -> forall k r ty w, (length l < k)%nat ->
  exists ty' w', entries k q (mkY (LF :: flat_map shown l ++ S2L "}" ++ r) ty w false) = Done (Some q', mkY r ty' w' false).
Proof.
  intros H. induction H as [q|t l q q1 q2 E C IH]; intros k r ty w Hk.
  - destruct k as [|k]; [cbn in Hk; lia|]. cbn [flat_map app entries]. pose proof (lex_brace [LF] 125 r ty w (blanks1 LF eq_refl) ltac:(lia)) as X. cbn [app] in X. 
    change (LF :: S2L "}" ++ r) with (LF :: chr 125 :: r). rewrite X. cbn [ibind]. change (str_eqb [chr 125] (S2L "}")) with true. cbv iota. eexists _, _. reflexivity.
  - destruct k as [|k]; [cbn in Hk; lia|]. cbn [flat_map]. unfold shown at 1. rewrite <- !app_assoc.
    destruct (E k (flat_map shown l ++ S2L "}" ++ r) (LF :: repeat SP 8) ty w) as (ty' & w' & Ee); [constructor; [reflexivity|apply blanks8]|].
    repeat progress (rewrite <- ?app_assoc in Ee; cbn [app] in Ee). repeat progress (rewrite <- ?app_assoc; cbn [app]). cbn [repeat app] in Ee |- *. rewrite Ee. apply IH. cbn [length] in Hk. lia.
Qed.

Ltac is_keyword := split; [cbn; tauto|eexists _, _; repeat split].
Lemma entry_method q m : 0 <= m <= 4 -> entry (method_text m) q (mkEq (lec q) m (sampl q) (comment q) (block q) (instr q) (date q) (tests q)).
Proof.
  intros M k r b ty w B.
  assert (H : exists kw, method_text m = kw /\ keyword kw /\ assoc kw METHODS = Some m /\ existsb (str_eqb kw) (map S2L ["}"; "DATE"; "SAMPLE"; "BLOCK"; "COMMENT"; "INSTRUMENTS"]%string) = false).
  { assert (C : m = 0 \/ m = 1 \/ m = 2 \/ m = 3 \/ m = 4) by lia.
    destruct C as [-> |[-> |[-> |[-> | ->]]]]; eexists; (split; [reflexivity|]); (split; [is_keyword|]); split; reflexivity. }
  destruct H as (kw & -> & K & A & N). cbn [entries]. rewrite (lex_keyword b kw LF r ty w B K eq_refl). cbn [ibind].
  cbn [map existsb] in N. apply orb_false_iff in N as [N1 N]. apply orb_false_iff in N as [N2 N]. apply orb_false_iff in N as [N3 N]. rewrite N1, N2, N3. cbn [map existsb]. rewrite N, A.
  eexists _, _. reflexivity.
Qed.
Lemma entry_text kw t u q : keyword kw -> In kw (map S2L ["BLOCK"; "COMMENT"; "INSTRUMENTS"]%string) -> no_control t -> Z.of_nat (length t) < 40000 -> t <> [] -> u = quoted t ->
  entry (kw ++ SP :: u) q (set_text kw t q).
Proof.
  intros K I N L NE -> k r b ty w B. cbn [entries]. rewrite <- app_assoc. cbn [app].
  rewrite (lex_keyword b kw SP (quoted t ++ LF :: r) ty w B K eq_refl). cbn [ibind].
  assert (X : str_eqb kw (S2L "}") = false /\ str_eqb kw (S2L "DATE") = false /\ str_eqb kw (S2L "SAMPLE") = false) by (cbn in I; destruct I as [<-|[<-|[<-|[]]]]; repeat split).
  destruct X as (-> & -> & ->). rewrite existsb_in by exact I. unfold read_str.
  pose proof (lex_string KE_TABLE [SP] t (LF :: r) Y_WORD kw (blanks1 SP eq_refl) N L) as Y. cbn [app] in Y. rewrite Y. cbn [ibind text].
  destruct t as [|c t]; [congruence|]. eexists _, _. reflexivity.
Qed.
Lemma entry_sample s q : sample_ok s -> years s ->
  entry (S2L "SAMPLE " ++ period_to_string (s_start s) ++ SP :: period_to_string (s_end s)) q (mkEq (lec q) (method q) (Some s) (comment q) (block q) (instr q) (date q) (tests q)).
Proof.
  intros So [Y1 Y2] k r b ty w B. cbn [entries].
  replace ((S2L "SAMPLE " ++ period_to_string (s_start s) ++ SP :: period_to_string (s_end s)) ++ LF :: r)
    with (S2L "SAMPLE" ++ SP :: period_to_string (s_start s) ++ SP :: period_to_string (s_end s) ++ LF :: r) by (repeat progress (rewrite <- ?app_assoc; cbn [app S2L list_ascii_of_string]); reflexivity).
  rewrite (lex_keyword b (S2L "SAMPLE") SP _ ty w B) by (reflexivity || is_keyword). cbn [ibind].
  change (str_eqb (S2L "SAMPLE") (S2L "}")) with false. change (str_eqb (S2L "SAMPLE") (S2L "DATE")) with false. change (str_eqb (S2L "SAMPLE") (S2L "SAMPLE")) with true. cbv iota.
  destruct (read_sample KE_TABLE s [SP] r Y_WORD (S2L "SAMPLE") (blanks1 SP eq_refl) So) as (w' & E); try tauto. cbn [app] in E. rewrite E. cbn [ibind]. eexists _, _. reflexivity.
Qed.
Lemma entry_date z q : 0 <= z < 10 ^ 9 -> entry (S2L "DATE " ++ to_string z) q (mkEq (lec q) (method q) (sampl q) (comment q) (block q) (instr q) z (tests q)).
Proof.
  intros Z k r b ty w B. cbn [entries].
  replace ((S2L "DATE " ++ to_string z) ++ LF :: r) with (S2L "DATE" ++ SP :: to_string z ++ LF :: r) by (repeat progress (rewrite <- ?app_assoc; cbn [app S2L list_ascii_of_string]); reflexivity).
  rewrite (lex_keyword b (S2L "DATE") SP _ ty w B) by (reflexivity || is_keyword). cbn [ibind].
  change (str_eqb (S2L "DATE") (S2L "}")) with false. change (str_eqb (S2L "DATE") (S2L "DATE")) with true. cbv iota.
  destruct (read_date z [SP] (LF :: r) Y_WORD (S2L "DATE") (blanks1 SP eq_refl) Z (number_end_lf r)) as (w' & E). cbn [app] in E. rewrite E. cbn [ibind]. eexists _, _. reflexivity.
Qed.
Definition set_test (i : nat) (x : dbl) (q : equation) : equation := mkEq (lec q) (method q) (sampl q) (comment q) (block q) (instr q) (date q) (set_nth (tests q) i x).
Lemma entry_test kw i x q : In (kw, i) TESTS -> d_num x = true -> x <> S754_zero false -> writable 8 x ->
  entry (kw ++ SP :: print_g 8 x) q (set_test i (to_float (stored 8 x)) q).
Proof.
  intros I NX NZ W k r b ty w B.
  assert (H : keyword kw /\ assoc kw METHODS = None /\ assoc kw TESTS = Some i /\
    existsb (str_eqb kw) (map S2L ["}"; "DATE"; "SAMPLE"; "BLOCK"; "COMMENT"; "INSTRUMENTS"]%string) = false).
  { cbn in I. repeat (destruct I as [I|I]; [injection I as <- <-; split; [is_keyword|repeat split]|]). contradiction. }
  destruct H as (K & A & A' & N). cbn [entries]. rewrite <- app_assoc. cbn [app]. rewrite (lex_keyword b kw SP (print_g 8 x ++ LF :: r) ty w B K eq_refl). cbn [ibind].
  cbn [map existsb] in N. apply orb_false_iff in N as [N1 N]. apply orb_false_iff in N as [N2 N]. apply orb_false_iff in N as [N3 N]. rewrite N1, N2, N3. cbn [map existsb]. rewrite N, A, A'.
  destruct (read_number_text KE_TABLE 8 x [SP] (LF :: r) Y_WORD kw (blanks1 SP eq_refl) NX NZ W (number_end_lf r)) as (ty' & w' & E). cbn [app] in E. rewrite E. cbn [ibind].
  eexists _, _. reflexivity.
Qed.

(** * The tests *)
Definition is_printed (v : dbl) : bool := negb (SFeqb v (S754_zero false)) && d_num v.
Definition load_test (t : list dbl) (acc : list dbl) (x : str * nat) : list dbl :=
  let v := nth (snd x) t (S754_zero false) in if is_printed v then set_nth acc (snd x) (to_float (stored 8 v)) else acc.
Definition loaded_tests (t : list dbl) : list dbl := fold_left (load_test t) TESTS no_tests.
Lemma printed_nonzero v : is_printed v = true -> d_num v = true /\ v <> S754_zero false.
Proof. unfold is_printed. intros H. apply andb_true_iff in H as [H1 H2]. split; [exact H2|]. intros ->. discriminate H1. Qed.
Definition with_tests (q : equation) (t : list dbl) : equation := mkEq (lec q) (method q) (sampl q) (comment q) (block q) (instr q) (date q) t.
Lemma chain_tests q0 : forall l acc q, (forall x, In x l -> In x TESTS) -> (forall x, In x l -> writable 8 (nth (snd x) (tests q0) (S754_zero false))) ->
  tests q = acc -> chain (flat_map (test_text q0) l) q (with_tests q (fold_left (load_test (tests q0)) l acc)).
Proof.
  induction l as [|x l IH]; intros acc q Hl Hw E.
  - cbn [flat_map fold_left]. subst acc. destruct q. apply chain_nil.
  - cbn [flat_map fold_left]. unfold test_text at 1, load_test at 2. fold (is_printed (nth (snd x) (tests q0) (S754_zero false))).
    destruct (is_printed (nth (snd x) (tests q0) (S754_zero false))) eqn:P.
    + destruct (printed_nonzero _ P) as [N Z]. destruct x as [kw i]. cbn [fst snd app] in *. econstructor.
      * apply entry_test with (i := i); [apply Hl; left; reflexivity|exact N|exact Z|apply (Hw (kw, i)); left; reflexivity].
      * subst acc. apply (IH (set_nth (tests q) i (to_float (stored 8 (nth i (tests q0) (S754_zero false))))) (set_test i (to_float (stored 8 (nth i (tests q0) (S754_zero false)))) q));
          [intros y Hy; apply Hl; right; exact Hy|intros y Hy; apply Hw; right; exact Hy|reflexivity].
    + cbn [app]. apply IH; [intros y Hy; apply Hl; right; exact Hy|intros y Hy; apply Hw; right; exact Hy|exact E].
Qed.

(** * One equation *)
Definition image (q : equation) : equation := with_tests q (match sampl q with None => no_tests | Some _ => loaded_tests (tests q) end).
Definition good (q : equation) : Prop := match sampl q with None => date q = 0 | Some s => sample_ok s /\ years s /\ 0 <= date q < 10 ^ 9 /\
   forall x, In x TESTS -> writable 8 (nth (snd x) (tests q) (S754_zero false)) end.
Lemma plain_string t : plain t -> unquoted t -> QUOTE :: t ++ [QUOTE] = quoted t.
Proof. intros _ U. unfold quoted. rewrite escaped_unquoted by exact U. reflexivity. Qed.
Lemma chain_entries compiles n q : text_savable compiles n q -> good q -> chain (entry_texts q) (with_lec (lec q)) (image q).
Proof.
  intros [SL SM (SB1 & SB2 & SB3) (SC1 & SC2) (SI1 & SI2 & SI3)] G. unfold entry_texts. econstructor; [apply entry_method, SM|].
  cbn [lec with_lec sampl comment block instr date tests]. econstructor.
  { change (S2L "BLOCK " ++ QUOTE :: block q ++ [QUOTE]) with (S2L "BLOCK" ++ SP :: QUOTE :: block q ++ [QUOTE]).
    apply entry_text with (t := block q); [is_keyword|cbn; tauto|apply SB1|apply SB1|exact SB3|apply plain_string; assumption]. }
  change (set_text (S2L "BLOCK") (block q) (mkEq (lec q) (method q) None [] [] [] 0 no_tests)) with (mkEq (lec q) (method q) None [] (block q) [] 0 no_tests).
  apply chain_app with (q1 := mkEq (lec q) (method q) None (comment q) (block q) [] 0 no_tests).
  { rewrite SC2. destruct (comment q) as [|c u] eqn:E; [apply chain_nil|]. econstructor; [|apply chain_nil].
    change (S2L "COMMENT " ++ quoted (c :: u)) with (S2L "COMMENT" ++ SP :: quoted (c :: u)).
    apply (entry_text (S2L "COMMENT") (c :: u) _ (mkEq (lec q) (method q) None [] (block q) [] 0 no_tests)); [is_keyword|cbn; tauto|apply SC1|apply SC1|discriminate|reflexivity]. }
  apply chain_app with (q1 := mkEq (lec q) (method q) None (comment q) (block q) (instr q) 0 no_tests).
  { destruct (trim (instr q)) as [|c u] eqn:E; [destruct SI3 as [->|SI3]; [apply chain_nil|congruence]|]. econstructor; [|apply chain_nil].
    change (S2L "INSTRUMENTS " ++ QUOTE :: instr q ++ [QUOTE]) with (S2L "INSTRUMENTS" ++ SP :: QUOTE :: instr q ++ [QUOTE]).
    apply (entry_text (S2L "INSTRUMENTS") (instr q) _ (mkEq (lec q) (method q) None (comment q) (block q) [] 0 no_tests)); [is_keyword|cbn; tauto|apply SI1|apply SI1| |apply plain_string; assumption].
    intros X. rewrite X in E. discriminate E. }
  unfold image, good in *. destruct (sampl q) as [s|] eqn:Es.
  - destruct G as (G1 & G2 & G3 & G4). econstructor; [apply entry_sample; assumption|]. econstructor; [apply entry_date; exact G3|].
    cbn [lec with_lec method sampl comment block instr date tests].
    pose proof (chain_tests q TESTS no_tests (mkEq (lec q) (method q) (Some s) (comment q) (block q) (instr q) (date q) no_tests) (fun x H => H) G4 eq_refl) as C.
    unfold with_tests in *. cbn [lec with_lec method sampl comment block instr date tests] in C. rewrite Es. exact C.
  - unfold with_tests. rewrite Es, G. apply chain_nil.
Qed.
Lemma shown_length l : (8 * length l <= length (flat_map shown l))%nat.
Proof. induction l as [|t l IH]; [cbn; lia|]. cbn [flat_map length]. rewrite app_length. unfold shown at 1. rewrite app_length, repeat_length. lia. Qed.
Lemma construct_image compiles n q : text_savable compiles n q -> good q -> construct compiles n (image q) = Done (image q).
Proof.
  intros SV G. destruct (sv_lec _ _ _ SV) as (_ & _ & _ & _ & C). unfold construct, image, good in *. cbn [with_tests sampl lec method comment block instr date tests]. rewrite C.
  unfold with_tests. destruct (sampl q) as [s|]; [|reflexivity]. destruct G as ((m & Hm & V1 & V2 & St & Nb) & (Y1 & Y2) & _).
  pose proof (parse_print _ V1 Y1) as P1. pose proof (parse_print _ V2 Y2) as P2.
  destruct (make_sample_count _ _ m V1 St Hm) as (s' & MS & A1 & A2 & A3 & _).
  assert (P : parse_sample (period_to_string (s_start s)) (period_to_string (s_end s)) = Ok s).
  { unfold parse_sample. rewrite P1, P2. cbn [rbind]. rewrite MS. f_equal. destruct s, s'. cbn in *. congruence. }
  destruct (period_to_string (s_start s)) as [|c u]; [discriminate P1|]. destruct (period_to_string (s_end s)) as [|d v]; [discriminate P2|]. rewrite P. reflexivity.
Qed.
Lemma read_one compiles n q r w0 : text_savable compiles n q -> good q ->
  exists ty w, read_eq compiles n (mkY (SP :: body q ++ r) Y_WORD w0 false) = Done (Some (image q), mkY (LF :: r) ty w false).
Proof.
  intros SV G. destruct (sv_lec _ _ _ SV) as (SL1 & SL2 & SL3 & SL4 & SL5). unfold read_eq, body. cbn [flat_map]. unfold lec_text. rewrite <- !app_assoc. cbn [app].
  pose proof (lex_brace [SP] 123 (LF :: (shown (QUOTE :: lec q ++ [QUOTE]) ++ flat_map shown (entry_texts q)) ++ S2L "}" ++ [LF] ++ r) Y_WORD w0 (blanks1 SP eq_refl) ltac:(lia)) as X.
  cbn [app] in X. change (S2L "{" ++ ?z) with (chr 123 :: z). repeat progress (rewrite <- ?app_assoc in X; cbn [app] in X). repeat progress (rewrite <- ?app_assoc; cbn [app]).
  rewrite X. cbn [ibind]. change (str_eqb [chr 123] (S2L "{")) with true. cbv iota. unfold read_str, shown at 1.
  pose proof (lex_quoted (LF :: repeat SP 8) (lec q) (LF :: flat_map shown (entry_texts q) ++ S2L "}" ++ LF :: r) Y_SPECIAL [chr 123] ltac:(constructor; [reflexivity|apply blanks8]) SL1 SL2) as Y.
  repeat progress (rewrite <- ?app_assoc in Y; cbn [app repeat] in Y). repeat progress (rewrite <- ?app_assoc; cbn [app repeat]). rewrite Y. cbn [ibind text].
  assert (Wr : wrap (lec q) 60 = lec q) by (destruct SL3 as [S|S]; [apply wrap_short; [apply SL1|exact S]|apply wrap_lf, S]). rewrite Wr. destruct (lec q) as [|c u] eqn:El; [congruence|]. rewrite <- El.
  set (y2 := mkY _ Y_STRING _ false).
  destruct (entries_chain _ _ _ (chain_entries compiles n q SV G) (fuel_of y2) (LF :: r) Y_STRING (lec q)) as (ty & w & E).
  { unfold fuel_of, y2. cbn [rest length]. rewrite app_length. pose proof (shown_length (entry_texts q)). lia. }
  unfold y2 in *. rewrite <- El in *. cbn [app S2L list_ascii_of_string] in E |- *. rewrite E. cbn [ibind]. rewrite (construct_image compiles n q SV G). cbn [ibind]. exists ty, w. reflexivity.
Qed.
Definition savable (compiles : str -> str -> bool) (x : str * equation) : Prop := text_savable compiles (fst x) (snd x) /\ good (snd x).
Lemma load_eqs compiles : forall l fuel db y, Forall (savable compiles) l -> (forall m, In m (map fst l) -> accepted EQUATIONS m /\ ~ In (chr 35) m /\ ~ In m []) ->
  at_objects [] body l y -> (length l < fuel)%nat ->
  load_loop fuel [] (read_equation compiles) db y = Done (true, puts (map (fun x => (fst x, image (snd x))) l) db).
Proof.
  induction l as [|[n q] l IH]; intros fuel db y G H A F; (destruct fuel as [|fuel]; [cbn in F; lia|]); cbn [load_loop].
  - destruct A as [y' A]. rewrite A. reflexivity.
  - unfold at_objects in A. rewrite A. cbn [ibind text]. inversion G as [|? ? [Gt Gq] Gl]; subst. cbn [fst snd map] in *.
    destruct (H n (or_introl eq_refl)) as (An & _ & _). rewrite (oname_accepted EQUATIONS n An).
    assert (H' : forall m, In m (map fst l) -> accepted EQUATIONS m /\ ~ In (chr 35) m /\ ~ In m []) by (intros m Hm; apply H; right; exact Hm).
    unfold read_equation. destruct (read_one compiles n q (file_of body l) n Gt Gq) as (ty & w & E). rewrite E. cbn [ibind].
    assert (Ob : own_block n (image q) = image q) by (unfold own_block, image, with_tests; cbn [block]; destruct (sv_block _ _ _ Gt) as (_ & _ & NE); destruct (block q) eqn:Eb; [congruence|reflexivity]).
    rewrite Ob, set_accepted by exact An. cbn [ibind]. rewrite (IH fuel); [reflexivity|exact Gl|exact H'| |cbn in F; lia].
    apply (at_start EQUATIONS [] body l [LF] ty w (blanks1 LF eq_refl) H').
Qed.
Lemma printable_plain t : plain t -> printable t.
Proof. intros H. apply H. Qed.
Lemma quote_printable t : printable t -> printable (QUOTE :: t ++ [QUOTE]).
Proof. intros H. constructor; [left; vm_compute; discriminate|]. apply printable_app; [exact H|]. constructor; [left; vm_compute; discriminate|constructor]. Qed.
Lemma num_printable p x : d_num x = true -> x <> S754_zero false -> writable p x -> printable (print_g p x).
Proof.
  intros N Z W. destruct (W N) as [->|(t & [PT OK _ _])]; [congruence|]. rewrite PT. unfold M_Decimal.sign. destruct (negative x); [constructor; [left; vm_compute; discriminate|]|]; apply text_printable, OK.
Qed.
Lemma key_printable (t u : str) : forallb (fun c => 32 <=? code c) t = true -> printable u -> printable (t ++ u).
Proof. intros H P. apply printable_app; [|exact P]. apply Forall_forall. intros c Hc. rewrite forallb_forall in H. left. specialize (H c Hc). lia. Qed.
Lemma texts_printable compiles n q : text_savable compiles n q -> good q -> Forall printable (lec_text q :: entry_texts q).
Proof.
  intros [(SL & _) SM (SB1 & SB2 & SB3) (SC1 & SC2) (SI1 & SI2 & SI3)] G. constructor; [apply quote_printable, printable_plain, SL|]. unfold entry_texts.
  constructor. { assert (C : method q = 0 \/ method q = 1 \/ method q = 2 \/ method q = 3 \/ method q = 4) by lia.
    destruct C as [-> |[-> |[-> |[-> | ->]]]]; apply Forall_forall; intros c Hc; left; vm_compute in Hc; repeat (destruct Hc as [<-|Hc]; [vm_compute; discriminate|]); contradiction. }
  constructor; [apply key_printable; [reflexivity|apply quote_printable, printable_plain, SB1]|]. apply Forall_app. split.
  { rewrite SC2. destruct (comment q) as [|c u] eqn:E; [constructor|]. constructor; [|constructor]. apply key_printable; [reflexivity|]. unfold quoted. apply quote_printable, printable_escaped, printable_plain, SC1. }
  apply Forall_app. split.
  { destruct (trim (instr q)) as [|c u] eqn:E; [constructor|]. constructor; [|constructor]. apply key_printable; [reflexivity|]. apply quote_printable, printable_plain, SI1. }
  unfold good in G. destruct (sampl q) as [s|]; [|constructor]. destruct G as ((m & Hm & V1 & V2 & St & Nb) & (Y1 & Y2) & D & W).
  constructor. { apply key_printable; [reflexivity|]. apply printable_app; [apply period_printable; assumption|]. constructor; [left; vm_compute; discriminate|apply period_printable; assumption]. }
  constructor. { apply key_printable; [reflexivity|]. apply digits_printable, to_string_spec. lia. }
  apply Forall_forall. intros t Ht. apply in_flat_map in Ht as (x & Hx & Ht). unfold test_text in Ht. fold (is_printed (nth (snd x) (tests q) (S754_zero false))) in Ht.
  destruct (is_printed _) eqn:P in Ht; [|contradiction]. destruct Ht as [<-|[]]. destruct (printed_nonzero _ P) as [N Z].
  replace (fst x ++ SP :: print_g 8 (nth (snd x) (tests q) (S754_zero false))) with ((fst x ++ [SP]) ++ print_g 8 (nth (snd x) (tests q) (S754_zero false))) by (rewrite <- app_assoc; reflexivity).
  apply key_printable; [|apply num_printable; [exact N|exact Z|apply W, Hx]]. cbn in Hx. repeat (destruct Hx as [<-|Hx]; [reflexivity|]). contradiction.
Qed.
Lemma eqs_length l : (length l <= length (save_equations l))%nat.
Proof. induction l as [|x l IH]; [cbn; lia|]. cbn [save_equations flat_map length]. fold (save_equations l). rewrite !app_length. cbn [length]. lia. Qed.
Theorem load_equations_ok compiles db : database EQUATIONS db -> no_sharp db -> Forall (savable compiles) db ->
  load_equations compiles (save_equations db) = Done (true, map (fun x => (fst x, image (snd x))) db).
Proof.
  intros [St Ac] NS Sv. unfold load_equations. pose proof (names_ok EQUATIONS db [] Ac NS (fun m _ H => H)) as NO.
  assert (D : delivered 0 (save_equations db) = file_of body db).
  { apply delivered_file. rewrite Forall_forall in *. intros [n q] Hx. cbn [fst snd]. destruct (Sv _ Hx) as [A B]. cbn [fst snd] in *. split.
    - apply (accepted_printable EQUATIONS), Ac, (in_map fst _ _ Hx).
    - apply (texts_printable compiles n); assumption. }
  unfold opened. rewrite D. rewrite (load_eqs compiles db); [|exact Sv|exact NO| |].
  - rewrite puts_sorted; [reflexivity|]. cbn. rewrite map_map. cbn [fst]. exact St.
  - apply (at_start EQUATIONS [] body db [] Y_NONE []); [constructor|exact NO].
  - unfold fuel_of. cbn [rest]. pose proof (file_length body image (read_equation compiles) db). lia.
Qed.

(** * The tests that are loaded *)
Lemma set_nth_length l : forall i x, length (set_nth l i x) = length l.
Proof. induction l as [|a l IH]; intros [|i] x; cbn; [reflexivity|reflexivity|reflexivity|]. rewrite IH. reflexivity. Qed.
Lemma nth_set l : forall i j x d, (i < length l)%nat -> nth j (set_nth l i x) d = if Nat.eqb j i then x else nth j l d.
Proof.
  induction l as [|a l IH]; intros [|i] j x d H; try (cbn in H; lia); destruct j as [|j]; cbn [set_nth nth Nat.eqb]; try reflexivity. apply IH. cbn in H. lia.
Qed.
Lemma fold_tests t : forall l acc, length acc = 20%nat -> (forall x, In x l -> (snd x < 20)%nat) -> NoDup (map snd l) ->
  length (fold_left (load_test t) l acc) = 20%nat /\ forall i,
    (In i (map snd l) -> nth i (fold_left (load_test t) l acc) (S754_zero false) =
       if is_printed (nth i t (S754_zero false)) then to_float (stored 8 (nth i t (S754_zero false))) else nth i acc (S754_zero false)) /\
    (~ In i (map snd l) -> nth i (fold_left (load_test t) l acc) (S754_zero false) = nth i acc (S754_zero false)).
Proof.
  induction l as [|x l IH]; intros acc La Hl ND; [split; [exact La|]; intros i; split; [contradiction|reflexivity]|].
  cbn [map fold_left] in *. inversion ND as [|? ? Nx ND']; subst.
  assert (Lx : length (load_test t acc x) = 20%nat) by (unfold load_test; destruct (is_printed _); [rewrite set_nth_length|]; exact La).
  destruct (IH (load_test t acc x) Lx (fun y Hy => Hl y (or_intror Hy)) ND') as [L' R]. split; [exact L'|]. intros i. destruct (R i) as [R1 R2].
  assert (Nt : nth i (load_test t acc x) (S754_zero false) = if Nat.eqb i (snd x) && is_printed (nth (snd x) t (S754_zero false)) then to_float (stored 8 (nth (snd x) t (S754_zero false))) else nth i acc (S754_zero false)).
  { unfold load_test. cbv zeta. set (p := is_printed (nth (snd x) t (S754_zero false))). destruct p; [|rewrite andb_false_r; reflexivity]. rewrite nth_set by (rewrite La; apply Hl; left; reflexivity). rewrite andb_true_r. reflexivity. }
  split.
  - intros [<-|Hi]; [rewrite R2 by exact Nx; rewrite Nt, Nat.eqb_refl; reflexivity|]. rewrite R1, Nt by exact Hi. destruct (is_printed _); [reflexivity|].
    replace (Nat.eqb i (snd x)) with false; [reflexivity|]. symmetry. apply Nat.eqb_neq. intros ->. contradiction.
  - intros Hi. cbn [In] in Hi. rewrite R2 by tauto. rewrite Nt. replace (Nat.eqb i (snd x)) with false; [reflexivity|]. symmetry. apply Nat.eqb_neq. intros ->. tauto.
Qed.
Lemma saved_positions i : In i (map snd TESTS) <-> saved_position i.
Proof. unfold saved_position. cbn. tauto. Qed.
Lemma nth_none i : nth i no_tests (S754_zero false) = S754_zero false.
Proof. unfold no_tests. do 20 (destruct i as [|i]; [reflexivity|]). destruct i; reflexivity. Qed.
Lemma loaded_is t : length (loaded_tests t) = 20%nat /\ forall i,
  (saved_position i -> nth i (loaded_tests t) (S754_zero false) =
     if is_printed (nth i t (S754_zero false)) then to_float (stored 8 (nth i t (S754_zero false))) else S754_zero false) /\
  (~ saved_position i -> nth i (loaded_tests t) (S754_zero false) = S754_zero false).
Proof.
  destruct (fold_tests t TESTS no_tests eq_refl) as [L R]; [intros x Hx; cbn in Hx; repeat (destruct Hx as [<-|Hx]; [cbn; lia|]); contradiction|repeat constructor; cbn; intuition discriminate|].
  split; [exact L|]. intros i. destruct (R i) as [R1 R2]. rewrite saved_positions in R1, R2. rewrite nth_none in R1, R2. split; assumption.
Qed.
