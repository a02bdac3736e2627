(** Specification of files in the format DIF: a table with the names in the first column and the values of the periods in the others. *)
From Coq Require Import ZArith Ascii String List Bool.
From Verif Require Import M_Base M_Time M_Lex M_Names M_Bytes M_Double M_Decimal L_Decimal.
Import ListNotations.
Open Scope Z_scope.

Definition lines (l : list str) : str := flat_map (fun t => t ++ [chr 10]) l.
Definition dquote (t : str) : str := chr 34 :: t ++ [chr 34].
Definition text_cell (t : str) : list str := [S2L "1,0"; dquote t].
Definition value_cell (t : number_text) : list str := [S2L "0," ++ text_of (chr 101) t; S2L "V"].
Definition dif_table (vectors tuples : Z) : list str :=
  [S2L "TABLE"; S2L "0,1"; dquote []; S2L "VECTORS"; S2L "0," ++ to_string vectors; dquote []; S2L "TUPLES"; S2L "0," ++ to_string tuples;
   dquote []; S2L "DATA"; S2L "0,0"; dquote []].
Definition tuple (l : list (list str)) : list str := [S2L "-1,0"; S2L "BOT"] ++ concat l.
(** A table with one period. *)
Definition dif_one (p : period) (rows : list (str * number_text)) : str :=
  lines (dif_table 2 (Z.of_nat (length rows) + 1) ++ tuple [text_cell (S2L "CODE"); text_cell (period_to_string p)] ++
         flat_map (fun x => tuple [text_cell (fst x); value_cell (snd x)]) rows ++ [S2L "-1,0"; S2L "EOD"]).
(** The value of a number that is written. *)
Definition value_of_text (t : number_text) : dbl := d_decimal (value_of (ip t ++ fp t)) (exp_value (ep t) - Z.of_nat (length (fp t))).
Definition short_number (t : number_text) : Prop := nt_ok t /\ (length (text_of (chr 101) t) <= 60)%nat.
