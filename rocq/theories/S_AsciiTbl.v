(** What a table becomes when it is saved in an ASCII file and loaded. *)
From Coq Require Import ZArith Ascii String List Bool Floats.SpecFloat.
From Verif Require Import M_Base M_Names M_Lex M_Bytes M_Double M_Decimal M_AsciiEqs M_AsciiTbl S_Names S_Ascii.
Import ListNotations.
Open Scope Z_scope.

(** A cell without text becomes an empty text, aligned to the left; the others are kept. *)
Definition kept_cell (c : cell) : cell := match content c with [] => mkCell false [] false false false 16 | _ => c end.
(** The lines of cells keep their axis and the bars; all other graphs are lines. *)
Definition kept_line (x : tline) : tline :=
  match kind x with
  | L_CELL => mkLine L_CELL (map kept_cell (cells x)) (if graph x =? 2 then 2 else 0) (right_axis x)
  | L_TITLE => mkLine L_TITLE (map kept_cell (cells x)) 0 false
  | k => mkLine k [] 0 false
  end.
(** A limit of an axis: the number with six decimals, as a float. One that is not a number is not saved. *)
Definition reread_limit (v : dbl) : dbl :=
  let x := d_decimal (round_div (numer v * 10 ^ 6) (denom v)) (-6) in
  to_float (if negative v then d_mul (d_ofZ (-1)) x else x).
Definition kept_limit (v : dbl) : dbl := if d_num v then reread_limit v else no_limit.
Definition kept_table (t : table) : table :=
  mkTable (columns t) (language t) (box t) (axis t) (gridx t) (gridy t) (text_align t)
    (kept_limit (ymin t)) (kept_limit (ymax t)) (kept_limit (zmin t)) (kept_limit (zmax t))
    (map kept_cell (divider t)) (map kept_line (tlines t)) (0, 0, 0).

(** The texts that can be read again. *)
Definition one_alignment (a : Z) : Prop := a = 8 \/ a = 16 \/ a = 32 \/ a = 64.
Definition savable_cell (compiles : str -> bool) (c : cell) : Prop :=
  content c <> [] ->
  plain (content c) /\ one_alignment (align c) /\
  if is_lec c then unquoted (content c) /\ compiles (content c) = true
  else (forall u, content c <> chr 34 :: u) /\ (forall u, content c <> u ++ [chr 34]).
Definition savable_line (compiles : str -> bool) (cols : Z) (x : tline) : Prop :=
  match kind x with
  | L_CELL => Z.of_nat (length (cells x)) = cols /\ Forall (savable_cell compiles) (cells x)
  | L_TITLE => exists c, cells x = [c] /\ savable_cell compiles c /\ (content c <> [] -> is_lec c = false)
  | _ => True
  end.
Definition char_value (z : Z) : Prop := 0 <= z <= 127.
(** A finite number with at most 38 digits before the point. *)
Definition savable_limit (v : dbl) : Prop :=
  d_num v = true -> match v with S754_infinity _ | S754_nan => False | _ => numer v < denom v * 10 ^ 38 end.
Definition savable_table (compiles : str -> bool) (t : table) : Prop :=
  1 <= columns t <= 32767 /\ char_value (box t) /\ char_value (axis t) /\ char_value (gridx t) /\ char_value (gridy t) /\
  0 <= text_align t <= 2 /\ Forall savable_limit [ymin t; ymax t; zmin t; zmax t] /\
  Z.of_nat (length (divider t)) = columns t /\ Forall (savable_cell compiles) (divider t) /\
  Forall (savable_line compiles (columns t)) (tlines t).
(** Nothing of the table is lost. *)
Definition cell_as_is (c : cell) : Prop := content c = [] -> c = mkCell false [] false false false 16.
Definition line_as_is (x : tline) : Prop :=
  match kind x with
  | L_CELL => Forall cell_as_is (cells x) /\ (graph x = 0 \/ graph x = 2)
  | L_TITLE => Forall cell_as_is (cells x) /\ graph x = 0 /\ right_axis x = false
  | _ => cells x = [] /\ graph x = 0 /\ right_axis x = false
  end.
Definition table_as_is (t : table) : Prop :=
  Forall cell_as_is (divider t) /\ Forall line_as_is (tlines t) /\ others t = (0, 0, 0) /\
  Forall (fun v => kept_limit v = v) [ymin t; ymax t; zmin t; zmax t].
