(** Specification of the Dickey-Fuller test. *)
From Coq Require Import ZArith Ascii String List Bool Floats.SpecFloat.
From Verif Require Import M_Base M_Report M_Time M_Names M_Lex M_Compile M_Bytes M_Exec M_Double M_Decimal M_Kdb M_Ascii M_EstSave.
Import ListNotations.
Open Scope Z_scope.

(** From the position [a], [n] numbers follow each other; there is none before, and the next value, if any, is not one. *)
Definition numbers_at (x : list dbl) (a n : nat) : Prop :=
  (a + n <= length x)%nat /\ (forall i, (i < a)%nat -> d_num (nth i x d_na) = false) /\ (forall i, (a <= i < a + n)%nat -> d_num (nth i x d_na) = true) /\
  ((a + n)%nat = length x \/ ((0 < n)%nat /\ d_num (nth (a + n) x d_na) = false)).
Definition num (i : nat) : str := to_string (Z.of_nat i).
(** The difference of _DF on its previous value, on a constant, on the time and on its [order] previous differences. *)
Definition tested (drift trend : bool) (order : nat) : str :=
  S2L "d(_DF) := df_ * _DF[-1]" ++ (if drift then S2L "+ df_d" else []) ++ (if trend then S2L "+ df_t*t" else []) ++
  flat_map (fun i => S2L " + df" ++ num i ++ S2L "*d(_DF[-" ++ num i ++ S2L "])") (seq 1 order).
Definition coefficients (drift trend : bool) (order : nat) : list str :=
  [S2L "df_"] ++ (if drift then [S2L "df_d"] else []) ++ (if trend then [S2L "df_t"] else []) ++ map (fun i => S2L "df" ++ num i) (seq 1 order).
(** The three values of a coefficient; the last one is missing when the standard error is almost zero. *)
Definition almost_zero (x : dbl) : bool :=
  (SFltb (d_ofZ 0) x && SFltb x (scan (S2L "1.0e-36"))) || (SFleb x (d_ofZ 0) && SFltb (SFopp x) (scan (S2L "1.0e-36"))).
Definition three (s : option scalar) : option dbl * option dbl * option dbl :=
  match s with
  | None => (None, None, None)
  | Some s => (Some (M_Ascii.value s), Some (std s), if almost_zero (std s) then None else Some (d_div (M_Ascii.value s) (std s)))
  end.
