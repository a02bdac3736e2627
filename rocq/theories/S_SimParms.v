(** Specification of the command $ModelSimulateParms, as documented (b_model.cpp:122-131): eps, relax, maxit, {Connex | Triang | None},
    starting values 0 - 4, {Yes | No}, passes, {Yes | No}. *)
From Coq Require Import ZArith Ascii String List Bool.
From Verif Require Import M_Base M_Order M_Vars.
Import ListNotations.
Open Scope Z_scope.

(** The arguments: words without blank, comma, tabulation nor end of line, with one of these after each of them but the last. *)
Definition separator (c : ascii) : Prop := In (code c) [32; 44; 10; 9].
Definition argument (w : str) : Prop := w <> [] /\ Forall (fun c => ~ separator c) w.
Fixpoint line_of (sep : ascii) (l : list str) : str :=
  match l with [] => [] | [w] => w | w :: l' => w ++ sep :: line_of sep l' end.

(** A word that starts with one of the letters. *)
Definition starts_in (l : string) (w : str) : Prop := exists c u, w = c :: u /\ In c (S2L l).
Inductive sort_word : str -> sort_option -> Prop :=
| SW_connex w : starts_in "cC" w -> sort_word w SORT_CONNEX
| SW_both w : starts_in "tTbB" w -> sort_word w SORT_BOTH
| SW_none w : starts_in "nN" w -> sort_word w SORT_NONE.
Inductive yes_no : str -> bool -> Prop :=
| YN_yes w : starts_in "yY" w -> yes_no w true
| YN_no w : starts_in "nN" w -> yes_no w false.
(** The starting values, by their number (variables.h:39-48). *)
Definition starting : list vinit := [TM1; TM1_A; EXTRA; EXTRA_A; ASIS; TM1_NA; EXTRA_NA].
