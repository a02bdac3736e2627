(** Tables saved in and loaded from ASCII files: api/ascii/k_cctbl.cpp, api/ascii/ascii.h:41-82, api/objs/tables.h, api/objs/k_tbl.cpp,
    api/utils/yy.cpp.

    As in M_Ascii (texts are those of the OEM code page; messages are left out). [compiles lec]: the construction of Identity succeeds.
    Besides: the tables that are saved have the cells that are accessed ([nb_columns] cells in the divider line, one cell at least in a
    title), as those of the constructors; the type of a line is one of the six of tables.h:76-84. *)
From Coq Require Import ZArith Ascii String List Bool Floats.SpecFloat.
From Verif Require Import M_Base M_Time M_Names M_Lex M_Compile M_Bytes M_Exec M_Double M_Decimal M_Kdb M_Ascii M_AsciiEqs.
Import ListNotations.
Open Scope Z_scope.

(** tables.h:26-38, 170-176: the type, the text ([content], or the formula of [idt]; empty when it is null) and [attribute], that is the
    three fonts and the alignment: 8 CENTER, 16 LEFT, 32 RIGHT, 64 DECIMAL. *)
Record cell := mkCell { is_lec : bool; content : str; bold : bool; italic : bool; underline : bool; align : Z }.
Definition CENTER : Z := 8.
Definition LEFT : Z := 16.
Definition RIGHT : Z := 32.
Definition DECIMAL : Z := 64.
(** tables.h:76-84, 417-436. [graph]: 0 line, 1 scatter, 2 bar. *)
Inductive lkind := L_FILES | L_MODE | L_CELL | L_SEP | L_TITLE | L_DATE.
Record tline := mkLine { kind : lkind; cells : list cell; graph : Z; right_axis : bool }.
(** tables.h:68-74: the language; 539-566: the fields. [others]: [repeat_columns], [attribute], [chart_shadow]. *)
Inductive tlang := ENGLISH | DUTCH | FRENCH.
Record table := mkTable {
  columns : Z; language : tlang; box : Z; axis : Z; gridx : Z; gridy : Z; text_align : Z;
  ymin : dbl; ymax : dbl; zmin : dbl; zmax : dbl; divider : list cell; tlines : list tline; others : Z * Z * Z }.

(** * Loading *)

(** tables.h:179-206: the constructor of a string cell, of a LEC cell. *)
Definition empty_cell : cell := mkCell false [] false false false LEFT.
Definition lec_of (compiles : str -> bool) (t : str) : str := if compiles t then t else [].
Definition div_cell (compiles : str -> bool) (t : str) (col : nat) : cell :=
  mkCell true (match t with [] => [] | _ => lec_of compiles t end) false false false (match col with O => LEFT | _ => DECIMAL end).
(** tables.h:254-258 [set_align], 260-300 [set_bold], [set_italic], [set_underline]. *)
Definition with_align (a : Z) (c : cell) : cell := mkCell (is_lec c) (content c) (bold c) (italic c) (underline c) a.
Definition with_fonts (b i u : bool) (c : cell) : cell := mkCell (is_lec c) (content c) b i u (align c).
(** k_tbl.cpp:49-81 [set_text]: quotes at both ends are removed. A text that is one quote: [back] of an empty string. *)
Definition set_cell_text (t : str) (c : cell) : io cell :=
  let a := if align c =? DECIMAL then LEFT else align c in
  let a := if existsb (fun x => code x =? 35) t then CENTER else a in
  let made t := mkCell false t (bold c) (italic c) (underline c) a in
  match t with
  | [] => Done (made [])
  | x :: t' =>
    let u := if code x =? 34 then t' else t in
    match rev u with
    | [] => Undefined
    | z :: v => Done (made (if code z =? 34 then rev v else u))
    end
  end.
(** k_tbl.cpp:83-103 [set_lec]. *)
Definition set_cell_lec (compiles : str -> bool) (t : str) (c : cell) : cell :=
  mkCell true (match t with [] => [] | _ => lec_of compiles t end) (bold c) (italic c) (underline c) (align c).
Definition is_key (l : lexed) (k : string) : bool := match l with L_KEY w => str_eqb w (S2L k) | _ => false end.
(** k_cctbl.cpp:29-106 [read_cell]: after the first token. [ok]: the text has been read. *)
Definition attribute_of (l : lexed) (c : cell) : option cell :=
  if is_key l "RIGHT" then Some (with_align RIGHT c)
  else if is_key l "LEFT" then Some (with_align LEFT c)
  else if is_key l "CENTER" then Some (with_align CENTER c)
  else if is_key l "DECIMAL" then Some (with_align DECIMAL c)
  else if is_key l "ITALIC" then Some (with_fonts (bold c) true (underline c) c)
  else if is_key l "BOLD" then Some (with_fonts true (italic c) (underline c) c)
  else if is_key l "UNDERLINE" then Some (with_fonts (bold c) (italic c) true c)
  else if is_key l "NORMAL" then Some (with_fonts false false false c)
  else None.
Definition is_string (l : lexed) : bool := match l with L_TYPE Y_STRING => true | _ => false end.
Fixpoint cell_loop (compiles : str -> bool) (fuel : nat) (ok : bool) (c : cell) (l : lexed) (y : yy) : io (cell * yy) :=
  match fuel with
  | O => Unmodelled
  | S k =>
    let next ok c y := try '(l', y') <- lex TABLE y; cell_loop compiles k ok c l' y' in
    match attribute_of l c with
    | Some c' => next ok c' y
    | None =>
      if is_key l "LEC" then
        if ok then Done (c, unread y)
        else
          try '(l', y') <- lex TABLE y;
          if is_string l' then next true (with_align DECIMAL (set_cell_lec compiles (text y') c)) y' else next true c (unread y')
      else if is_string l then
        if ok then Done (c, unread y) else try c' <- set_cell_text (text y) c; next true c' y
      else Done (c, unread y)
    end
  end.
(** The fuel: each step of the loop reads a token. [only_string]: [mode] is YY_STRING; None is the null pointer. *)
Definition read_cell (compiles : str -> bool) (only_string : bool) (y : yy) : io (option cell * yy) :=
  try '(l, y1) <- lex TABLE y;
  if only_string && negb (is_string l) then Done (None, unread y1)
  else try '(c, y2) <- cell_loop compiles (fuel_of y1) false empty_cell l y1; Done (Some c, y2).
(** k_cctbl.cpp:126-135 [read_div] and 246-251: [n] cells. The pointer is never null. *)
Fixpoint read_cells (compiles : str -> bool) (n : nat) (y : yy) : io (list cell * yy) :=
  match n with
  | O => Done ([], y)
  | S k =>
    try '(c, y1) <- read_cell compiles false y;
    match c with
    | None => Undefined
    | Some c => try '(cs, y2) <- read_cells compiles k y1; Done (c :: cs, y2)
    end
  end.
(** k_cctbl.cpp:169-268 [read_line]: the line that is added, None when the function returns before. The axis and the graph of a line that
    is not yet there: a null pointer. *)
Definition simple_line (l : lexed) : option lkind :=
  if is_key l "LINE" then Some L_SEP else if is_key l "MODE" then Some L_MODE
  else if is_key l "DATE" then Some L_DATE else if is_key l "FILES" then Some L_FILES else None.
Definition graph_of (l : lexed) (x : tline) : option tline :=
  if is_key l "LAXIS" then Some (mkLine (kind x) (cells x) (graph x) false)
  else if is_key l "RAXIS" then Some (mkLine (kind x) (cells x) (graph x) true)
  else if is_key l "GRLINE" then Some (mkLine (kind x) (cells x) 0 (right_axis x))
  else if is_key l "GRSCATTER" then Some (mkLine (kind x) (cells x) 1 (right_axis x))
  else if is_key l "GRBAR" then Some (mkLine (kind x) (cells x) 2 (right_axis x))
  else None.
Definition empty_line (k : lkind) : tline := mkLine k [] 0 false.
Fixpoint line_loop (compiles : str -> bool) (fuel : nat) (cols : nat) (x : option tline) (y : yy) : io (option tline * yy) :=
  match fuel with
  | O => Unmodelled
  | S k =>
    try '(l, y1) <- lex TABLE y;
    match l with
    | L_TYPE Y_EOF => Done (x, unread y1)
    | _ =>
      match attribute_of l empty_cell with
      | Some _ => line_loop compiles k cols x y1
      | None =>
        match graph_of l (match x with Some t => t | None => empty_line L_CELL end), x with
        | Some t, Some _ => line_loop compiles k cols (Some t) y1
        | Some _, None => Undefined
        | None, Some t => Done (Some t, unread y1)
        | None, None =>
          match simple_line l with
          | Some kd => line_loop compiles k cols (Some (empty_line kd)) y1
          | None =>
            if is_key l "TITLE" then
              try '(c, y2) <- read_cell compiles true y1;
              match c with
              | None => Undefined
              | Some c => line_loop compiles k cols (Some (mkLine L_TITLE [c] 0 false)) y2
              end
            else if is_key l "-" then Done (Some (mkLine L_TITLE [empty_cell] 0 false), unread y1)
            else
              try '(cs, y2) <- read_cells compiles cols (unread y1);
              line_loop compiles k cols (Some (mkLine L_CELL cs 0 false)) y2
          end
        end
      end
    end
  end.
(** yy.cpp:73-102 [K_read_long] with the table of keywords of the tables: the minus is a keyword. *)
Fixpoint tlong_loop (fuel : nat) (y : yy) : io (Z * yy) :=
  match fuel with
  | O => Unmodelled
  | S k =>
    try '(l, y') <- lex TABLE y;
    match l with
    | L_TYPE Y_LONG => Done (long_of (text y'), y')
    | L_TYPE Y_SPECIAL => match text y' with c :: _ => if code c =? 43 then tlong_loop k y' else Done (0, unread y') | [] => Done (0, unread y') end
    | _ => Done (0, unread y')
    end
  end.
Definition tread_long (y : yy) : io (Z * yy) := tlong_loop (S (S (length (rest y)))) y.
(** yy.cpp:210-228 [K_read_align]. *)
Definition read_align (y : yy) : io (Z * yy) :=
  try '(l, y1) <- lex TABLE y;
  Done (if is_key l "LEFT" then (0, y1) else if is_key l "CENTER" then (1, y1) else if is_key l "RIGHT" then (2, y1) else (0, unread y1)).
(** Conversions to char and to short. *)
Definition to_char (z : Z) : Z := (z + 128) mod 256 - 128.
Definition to_short (z : Z) : Z := (z + 32768) mod 65536 - 32768.
Definition set_header (f : nat) (v : Z) (t : table) : table :=
  let g i (old : Z) := if Nat.eqb f i then v else old in
  mkTable (columns t) (language t) (g 0%nat (box t)) (g 1%nat (axis t)) (g 2%nat (gridx t)) (g 3%nat (gridy t)) (g 4%nat (text_align t))
    (ymin t) (ymax t) (zmin t) (zmax t) (divider t) (tlines t) (others t).
Definition set_limit (f : nat) (v : dbl) (t : table) : table :=
  let g i (old : dbl) := if Nat.eqb f i then v else old in
  mkTable (columns t) (language t) (box t) (axis t) (gridx t) (gridy t) (text_align t)
    (g 0%nat (ymin t)) (g 1%nat (ymax t)) (g 2%nat (zmin t)) (g 3%nat (zmax t)) (divider t) (tlines t) (others t).
Definition set_lang (v : tlang) (t : table) : table :=
  mkTable (columns t) v (box t) (axis t) (gridx t) (gridy t) (text_align t) (ymin t) (ymax t) (zmin t) (zmax t) (divider t) (tlines t) (others t).
Definition set_div (v : list cell) (t : table) : table :=
  mkTable (columns t) (language t) (box t) (axis t) (gridx t) (gridy t) (text_align t) (ymin t) (ymax t) (zmin t) (zmax t) v (tlines t) (others t).
Definition add_line (v : option tline) (t : table) : table :=
  mkTable (columns t) (language t) (box t) (axis t) (gridx t) (gridy t) (text_align t) (ymin t) (ymax t) (zmin t) (zmax t) (divider t)
    (tlines t ++ match v with Some x => [x] | None => [] end) (others t).
(** k_tbl.cpp:341-346, 399-402: the constructor; tables.h:541-566: the defaults. *)
Definition no_limit : dbl := to_float d_na.
Definition new_table (compiles : str -> bool) (dim : Z) : table :=
  mkTable dim ENGLISH 0 0 0 0 0 no_limit no_limit no_limit no_limit
    (div_cell compiles (S2L "1") 0 :: map (div_cell compiles []) (seq 1 (Z.to_nat dim - 1))) [] (0, 0, 0).
Definition HEADERS : list (str * nat) := [(S2L "BOX", 0); (S2L "AXIS", 1); (S2L "XGRID", 2); (S2L "YGRID", 3)]%nat.
Definition LIMITS : list (str * nat) := [(S2L "YMIN", 0); (S2L "YMAX", 1); (S2L "ZMIN", 2); (S2L "ZMAX", 3)]%nat.
Definition LANGS : list (str * tlang) := [(S2L "DUTCH", DUTCH); (S2L "FRENCH", FRENCH); (S2L "ENGLISH", ENGLISH)].
(** k_cctbl.cpp:304-366: until the closing brace. Other tokens are skipped; at the end of the file the loop does not end (the end is
    read again and again). *)
Fixpoint table_loop (compiles : str -> bool) (fuel : nat) (t : table) (y : yy) : io (table * yy) :=
  match fuel with
  | O => Unmodelled
  | S k =>
    try '(l, y1) <- lex TABLE y;
    match l with
    | L_KEY w =>
      if str_eqb w (S2L "}") then Done (t, y1)
      else
        match assoc w LANGS with
        | Some g => table_loop compiles k (set_lang g t) y1
        | None =>
          if str_eqb w (S2L "DIV") then
            try '(cs, y2) <- read_cells compiles (Z.to_nat (columns t)) y1;
            table_loop compiles k (set_div (cs ++ skipn (length cs) (divider t)) t) y2
          else
            match assoc w HEADERS with
            | Some f => try '(v, y2) <- tread_long y1; table_loop compiles k (set_header f (to_char v) t) y2
            | None =>
              match assoc w LIMITS with
              | Some f => try '(v, y2) <- read_real TABLE y1; table_loop compiles k (set_limit f (to_float v) t) y2
              | None =>
                if str_eqb w (S2L "ALIGN") then try '(v, y2) <- read_align y1; table_loop compiles k (set_header 4 v t) y2
                else if str_eqb w (S2L "-") then
                  try '(x, y2) <- line_loop compiles (fuel_of y1) (Z.to_nat (columns t)) None y1;
                  table_loop compiles k (add_line x t) y2
                else table_loop compiles k t y1
              end
            end
        end
    | _ => table_loop compiles k t y1
    end
  end.
(** k_cctbl.cpp:279-372 [read_tbl]: None is the null pointer. *)
Definition read_tbl (compiles : str -> bool) (y : yy) : io (option table * yy) :=
  try '(l, y1) <- lex TABLE y;
  if is_key l "{" then
    try '(l2, y2) <- lex TABLE y1;
    try '(dim, y4) <-
      (if is_key l2 "DIM" then
         try '(l3, y3) <- lex TABLE y2;
         match l3 with L_TYPE Y_LONG => Done (to_short (long_of (text y3)), y3) | _ => Done (2, unread y3) end
       else Done (2, unread y2));
    try '(t, y5) <- table_loop compiles (fuel_of y4) (new_table compiles dim) y4; Done (Some t, y5)
  else Done (None, y1).
(** k_cctbl.cpp:391-469 [load_asc]: names are read with [YY_lex]: the keywords are not names. *)
Definition read_table (compiles : str -> bool) (db : smap table) (name : str) (y : yy) : io (smap table * bool * yy) :=
  try '(t, y1) <- read_tbl compiles y;
  match t with
  | None => Done (db, false, y1)
  | Some t => match set_in TABLES db name t with Some db' => Done (db', true, y1) | None => Done (db, false, y1) end
  end.
Definition load_tables (compiles : str -> bool) (file : str) : io (bool * smap table) :=
  let y := opened file in load_loop (fuel_of y) TABLE (read_table compiles) [] y.

(** * Saving *)

Definition line_feed (t : string) : str := LF :: S2L t.
(** C99 7.19.6.1 conversion f, with 6 decimals. *)
Definition f_text (n d : Z) : str :=
  let r := round_div (n * 10 ^ 6) d in
  let f := to_string (r mod 10 ^ 6) in
  to_string (r / 10 ^ 6) ++ chr 46 :: zeros (6 - Z.of_nat (length f)) ++ f.
Definition print_f (x : dbl) : str :=
  match x with
  | S754_nan => S2L "nan"
  | S754_infinity s => M_Decimal.sign s (S2L "inf")
  | S754_zero s => M_Decimal.sign s (f_text 0 1)
  | S754_finite s m e => M_Decimal.sign s (if 0 <=? e then f_text (Z.pos m * 2 ^ e) 1 else f_text (Z.pos m) (2 ^ (- e)))
  end.
(** k_cctbl.cpp:480-495 [print_align], 506-512 [print_graph_info], 522-525 [print_chart_axis_type]. *)
Definition print_align (a : Z) : str :=
  line_feed "ALIGN " ++ (if a =? 0 then S2L "LEFT " else if a =? 1 then S2L "CENTER " else if a =? 2 then S2L "RIGHT " else []).
Definition print_graph (x : tline) : str :=
  (if right_axis x then S2L " RAXIS " else S2L " LAXIS ") ++ (if graph x =? 2 then S2L " GRBAR " else S2L " GRLINE ").
Definition print_limit (k : string) (v : dbl) : str := if d_num v then line_feed k ++ SP :: print_f v ++ [SP] else [].
(** k_cctbl.cpp:535-560 [print_attribute], 571-597 [print_cell]: a formula is not escaped. *)
Definition print_attribute (c : cell) : str :=
  (if bold c then S2L "BOLD " else []) ++ (if italic c then S2L "ITALIC " else []) ++ (if underline c then S2L "UNDERLINE " else []) ++
  (if align c =? CENTER then S2L "CENTER " else if align c =? DECIMAL then S2L "DECIMAL "
   else if align c =? LEFT then S2L "LEFT " else if align c =? RIGHT then S2L "RIGHT " else []).
Definition print_cell (c : cell) : str :=
  match content c with
  | [] => [QUOTE; QUOTE; SP]
  | t => if is_lec c then S2L "LEC " ++ QUOTE :: t ++ [QUOTE; SP] ++ print_attribute c else quoted t ++ SP :: print_attribute c
  end.
(** k_cctbl.cpp:607-659 [print_tbl]. *)
Definition lang_text (g : tlang) : str := match g with ENGLISH => S2L "ENGLISH " | DUTCH => S2L "DUTCH " | FRENCH => S2L "FRENCH " end.
Definition kind_text (k : lkind) : str :=
  match k with
  | L_FILES => S2L "FILES " | L_MODE => S2L "MODE " | L_SEP => S2L "LINE " | L_TITLE => S2L "TITLE " | L_DATE => S2L "DATE " | L_CELL => []
  end.
Definition print_line (x : tline) : str :=
  line_feed "- " ++ kind_text (kind x) ++
  match kind x with
  | L_CELL => flat_map print_cell (cells x) ++ print_graph x
  | L_TITLE => print_cell (hd empty_cell (cells x))
  | _ => []
  end.
Definition print_tbl (t : table) : str :=
  line_feed "DIM " ++ to_string (columns t) ++ LF :: lang_text (language t) ++
  line_feed "BOX " ++ to_string (box t) ++ S2L " AXIS " ++ to_string (axis t) ++ S2L " XGRID " ++ to_string (gridx t) ++
  S2L " YGRID " ++ to_string (gridy t) ++ SP :: print_align (text_align t) ++
  print_limit "YMIN" (ymin t) ++ print_limit "YMAX" (ymax t) ++ print_limit "ZMIN" (zmin t) ++ print_limit "ZMAX" (zmax t) ++
  line_feed "DIV " ++ flat_map print_cell (firstn (Z.to_nat (columns t)) (divider t)) ++
  flat_map print_line (tlines t) ++ LF :: S2L "/* END OF TABLE */" ++ [LF].
(** k_cctbl.cpp:671-710 [save_asc]. *)
Definition save_tables (db : smap table) : str := flat_map (fun x => fst x ++ S2L " {" ++ print_tbl (snd x) ++ S2L "}" ++ [LF]) db.
