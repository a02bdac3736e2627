(** Specification of what an estimation leaves in the workspaces. *)
From Coq Require Import ZArith Ascii String List Bool Floats.SpecFloat.
From Verif Require Import M_Base M_Report M_Time M_Names M_Lex M_Compile M_Bytes M_Exec M_Double M_Decimal M_Kdb M_Ascii M_AsciiEqs M_EstSave S_Report.
Import ListNotations.
Open Scope Z_scope.

Definition upper (n : str) : str := to_key UPPER_CASE n.
(** The equations estimated with the equation [q] of name [n], with their formulas: those of its block, or itself. *)
Definition members (e : smap equation) (n : str) (q : equation) : list (str * str) :=
  match elements (block q) with
  | [] => [(n, lec q)]
  | l => map (fun b => (b, match M_Kdb.find (upper b) e with Some q => lec q | None => [] end)) l
  end.
Definition in_keys (k : str) (l : list (str * str)) : Prop := In k (map (fun x => upper (fst x)) l).
Definition instruments (q : equation) : list str := tokens (fun c => among c [44; 59]) (instr q) [].
(** The equation after the estimation. *)
Definition saved (m : Z) (s : sample) (day : Z) (t rest : list dbl) (q : equation) : equation :=
  mkEq (lec q) m (Some s) (comment q) (block q) (instr q) day (map to_float t ++ rest).
Definition five (m : Z) : Z := if (0 <=? m) && (m <? 5) then m else 0.
(** Two equations that differ by the method, the sample, the date and the tests only. *)
Definition same_text (q q' : equation) : Prop := lec q' = lec q /\ comment q' = comment q /\ block q' = block q /\ instr q' = instr q.
Definition same_texts (a b : smap equation) : Prop :=
  forall k, match M_Kdb.find k a, M_Kdb.find k b with Some q, Some q' => same_text q q' | None, None => True | _, _ => False end.
(** The scalars with the results of the equation at position [j]: [t], its tests as floats. *)
Definition scalar_values (t : list dbl) (n k : Z) : list (str * dbl) :=
  [(S2L "n", d_ofZ n); (S2L "k", d_ofZ k); (S2L "stdev", nth 1 t d_na); (S2L "meany", nth 2 t d_na); (S2L "ssres", nth 3 t d_na);
   (S2L "stderr", nth 4 t d_na); (S2L "stderrp", nth 5 t d_na); (S2L "fstat", nth 6 t d_na); (S2L "r2", nth 7 t d_na);
   (S2L "r2adj", nth 8 t d_na); (S2L "dw", nth 9 t d_na); (S2L "loglik", nth 10 t d_na)].
Definition scalar_at (j : nat) (txt : str) : str := S2L "e" ++ to_string (Z.of_nat j) ++ S2L "_" ++ txt.
Definition variable_at (p : str) (j : nat) : str := p ++ to_string (Z.of_nat j).
(** A series that holds [row] from the position [from] and no value elsewhere. *)
Definition holds (v row : list dbl) (from nb : Z) : Prop :=
  Z.of_nat (length v) = nb /\ forall t, 0 <= t < nb ->
  nth (Z.to_nat t) v d_na = if (from <=? t) && (t <? from + Z.of_nat (length row)) then nth (Z.to_nat (t - from)) row d_na else d_na.
