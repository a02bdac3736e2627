(** Specification: the equations that are saved in an ASCII file without loss. *)
From Coq Require Import ZArith Ascii String List Bool Floats.SpecFloat.
From Verif Require Import M_Base M_Time M_Names M_Double M_Ascii M_AsciiEqs S_Time S_Ascii.
Import ListNotations.
Open Scope Z_scope.

(** The formula: accepted by the compiler, without quote nor backslash, of several lines or of one line of at most 60 characters.
    The block: not empty. The comment: no blank at its ends. *)
Record text_savable (compiles : str -> str -> bool) (name : str) (q : equation) : Prop := {
  sv_lec : plain (lec q) /\ unquoted (lec q) /\ (short_line (lec q) \/ has_lf (lec q)) /\ lec q <> [] /\ compiles name (lec q) = true;
  sv_method : 0 <= method q <= 4;
  sv_block : plain (block q) /\ unquoted (block q) /\ block q <> [];
  sv_comment : plain (comment q) /\ trim (comment q) = comment q;
  sv_instr : plain (instr q) /\ unquoted (instr q) /\ (instr q = [] \/ trim (instr q) <> []) }.
Definition years (s : sample) : Prop := 1000 <= year (s_start s) <= 9999 /\ 1000 <= year (s_end s) <= 9999.
(** The positions of the tests that are saved: all but the correlation (0) and the standard error in percents (5). *)
Definition saved_position (i : nat) : Prop := In i [1; 2; 3; 4; 6; 7; 8; 9; 10]%nat.
(** An estimated equation has a sample; its date has at most 9 digits; its tests are 0, numbers or NA. Another equation has
    neither date nor tests. *)
Definition results_savable (q : equation) : Prop :=
  match sampl q with
  | None => date q = 0 /\ tests q = no_tests
  | Some s => sample_ok s /\ years s /\ 0 <= date q < 10 ^ 9 /\ length (tests q) = 20%nat /\
              forall i, saved_position i -> let x := nth i (tests q) (S754_zero false) in measured x \/ missing x
  end.
(** What a test becomes: 0 for 0 and for NA, otherwise the float of a number close to 8 digits. *)
Definition test_saved (x y : dbl) : Prop :=
  ((x = S754_zero false \/ missing x) /\ y = S754_zero false) \/ (common x /\ exists z, close 8 x z /\ y = to_float z).
Definition tests_saved (t u : list dbl) : Prop :=
  length u = 20%nat /\ forall i, (i < 20)%nat ->
    (saved_position i -> test_saved (nth i t (S754_zero false)) (nth i u (S754_zero false))) /\
    (~ saved_position i -> nth i u (S754_zero false) = S754_zero false).
(** The same equation, with other tests. *)
Definition same_but_tests (q r : equation) : Prop :=
  lec r = lec q /\ method r = method q /\ sampl r = sampl q /\ comment r = comment q /\ block r = block q /\ instr r = instr q /\ date r = date q.
