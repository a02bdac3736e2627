(** Databases saved in and loaded from ASCII files: api/ascii/k_cccmt.cpp, k_cclst.cpp, k_ccidt.cpp, k_ccscl.cpp,
    k_ccvar.cpp, api/utils/yy.cpp and the reader scr4/s_yread.c, s_ylex.c, s_ybase.c.

    A file is the list of its bytes. Simplifications: texts are those of the OEM code page (the conversions from and to
    UTF-8 are left out) and hold no NUL; files are opened without error and hold no NUL; messages and the path of the
    database are left out; the databases are not subsets. *)
From Coq Require Import ZArith Ascii String List Bool Floats.SpecFloat.
From Verif Require Import M_Base M_Time M_Names M_Lex M_Compile M_Bytes M_Exec M_Double M_Decimal M_Kdb.
Import ListNotations.
Open Scope Z_scope.

(** Outcome of a reading: done, an exception that leaves the function, undefined behaviour (a buffer overrun),
    or a construct that is not modelled (macros, directives, numeric escapes). *)
Inductive io (X : Type) := Done (x : X) | Thrown | Undefined | Unmodelled.
Arguments Done {X} x. Arguments Thrown {X}. Arguments Undefined {X}. Arguments Unmodelled {X}.
Definition ibind {X Y} (r : io X) (f : X -> io Y) : io Y :=
  match r with Done x => f x | Thrown => Thrown | Undefined => Undefined | Unmodelled => Unmodelled end.
Notation "'try' x <- r ; k" := (ibind r (fun x => k)) (at level 200, x name, r at level 100, k at level 200).
Notation "'try' ' p <- r ; k" := (ibind r (fun p => k)) (at level 200, p pattern, r at level 100, k at level 200).
Definition of_res {X} (r : res X) : io X := match r with Ok x => Done x | Throw => Thrown | UB => Undefined end.

Definition LF : ascii := chr 10.
Definition SP : ascii := chr 32.
Definition QUOTE : ascii := chr 34.
Definition BSL : ascii := chr 92.
Definition CARET : ascii := chr 94.

(** * The reader *)

(** s_ybase.c:285-333 [YY_getc] on a file: the characters that are delivered, from column [col]. *)
Fixpoint delivered (col : Z) (s : str) : str :=
  match s with
  | [] => []
  | c :: s' =>
    let z := code c in
    if 32 <=? z then c :: delivered (col + 1) s'
    else if z =? 9 then repeat SP (Z.to_nat (8 - col mod 8)) ++ delivered (col + (8 - col mod 8)) s'
    else if z =? 10 then c :: delivered 0 s'
    else if (z =? 13) || (z =? 26) then delivered col s'
    else c :: delivered (col + 1) s'
  end.

(** The types of s_yy.h ([yy_type]). *)
Inductive ytype := Y_NONE | Y_EOF | Y_COMMENT | Y_LONG | Y_DOUBLE | Y_STRING | Y_LETTER | Y_SPECIAL | Y_WORD.
(** What [YY_lex] returns: a type, a keyword of the table, or YY_ERROR. *)
Inductive lexed := L_TYPE (t : ytype) | L_KEY (w : str) | L_ERROR.
(** The fields of YYFILE: the characters to come, [yy_type], [yy_text] (a number is the number of its text),
    [yy_reread]. *)
Record yy := mkY { rest : str; typ : ytype; text : str; reread : bool }.
(** s_ybase.c [YY_open], [YY_unread]. *)
Definition opened (file : str) : yy := mkY (delivered 0 file) Y_NONE [] false.
Definition unread (y : yy) : yy := mkY (rest y) (typ y) (text y) true.

(** s_yread.c:520-571 [YY_read_escape]: the character after the backslash; None: numeric escapes, not modelled. *)
Definition escape (c : ascii) : option ascii :=
  let z := code c in
  if z =? 97 then Some (chr 7) else if z =? 98 then Some (chr 8) else if z =? 102 then Some (chr 12)
  else if z =? 110 then Some LF else if z =? 114 then Some (chr 13) else if z =? 116 then Some (chr 9)
  else if z =? 118 then Some (chr 11)
  else if (z =? 120) || (z =? 88) || (z =? 100) || (z =? 68) then None
  else if (48 <=? z) && (z <=? 55) then None
  else Some c.
(** s_yread.c:497-507 [YY_read_control]: the character after a caret; None: it is not used. *)
Definition control (c : ascii) : option ascii :=
  let z := code c in
  if z =? 91 then Some (chr 27)
  else if (65 <=? z) && (z <=? 90) then Some (chr (z - 64))
  else if (97 <=? z) && (z <=? 122) then Some (chr (z - 96))
  else None.
Definition add1 (c : ascii) (r : option (str * str)) : option (str * str) :=
  match r with Some (t, r) => Some (c :: t, r) | None => None end.
(** s_yread.c:717-746 [YY_read_string]: the text and the rest. An escape at the end of the file gives (char) -1. *)
Fixpoint read_string (s : str) : option (str * str) :=
  match s with
  | [] => Some ([], [])
  | c :: s' =>
    if code c =? 92 then
      match s' with
      | [] => Some ([chr 255], [])
      | d :: s'' => match escape d with Some x => add1 x (read_string s'') | None => None end
      end
    else if code c =? 94 then
      match s' with
      | [] => Some ([CARET], [])
      | d :: s'' => match control d with Some x => add1 x (read_string s'') | None => add1 CARET (read_string s') end
      end
    else if code c =? 34 then Some ([], s')
    else add1 c (read_string s')
  end.
(** s_yread.c:612-634 [YY_read_letter]; None: a numeric escape. *)
Fixpoint skip_quote (s : str) : str := match s with [] => [] | c :: s' => if code c =? 39 then s' else skip_quote s' end.
Definition read_letter (s : str) : option (str * str) :=
  match s with
  | [] => Some ([chr 255], [])
  | c :: s' =>
    if code c =? 92 then
      match s' with
      | [] => Some ([chr 255], [])
      | d :: s'' => match escape d with Some x => Some ([x], skip_quote s'') | None => None end
      end
    else if code c =? 94 then
      match s' with
      | [] => Some ([CARET], [])
      | d :: s'' => match control d with Some x => Some ([x], skip_quote s'') | None => Some ([CARET], skip_quote s') end
      end
    else Some ([c], skip_quote s')
  end.

(** s_ydvlp.h: [yy_text] has 40000 bytes, with the final NUL. *)
Definition TEXT_MAX : Z := 40000.
Definition fits (t : str) : bool := Z.of_nat (length t) <? TEXT_MAX.
(** s_atof.c:47-54: the text of a real is copied in a buffer of 255 bytes. *)
Definition fits_real (t : str) : bool := Z.of_nat (length t) <? 255.

(** s_yread.c:338-487 [YY_read]; the result is the value returned by the function. *)
Definition token (t : ytype) (w r : str) : io (lexed * yy) := Done (L_TYPE t, mkY r t w false).
Definition read_number (s : str) (prefix : str) (dbl : bool) : io (lexed * yy) :=
  let '(t, d, r) := read_num s dbl false in
  let w := prefix ++ t in
  if negb d && (Z.of_nat (length w) <? 10) then token Y_LONG w r
  else if fits_real w then token Y_DOUBLE w r else Undefined.
Definition yread (y : yy) : io (lexed * yy) :=
  if reread y then Done (L_TYPE (typ y), mkY (rest y) (typ y) (text y) false)
  else
    match skip_spaces (rest y) with
    | [] => token Y_EOF (text y) []
    | c :: s =>
      let z := code c in
      if z =? 34 then
        match read_string s with
        | Some (t, r) => if fits t then token Y_STRING t r else Undefined
        | None => Unmodelled
        end
      else if z =? 39 then match read_letter s with Some (t, r) => token Y_LETTER t r | None => Unmodelled end
      else if z =? 36 then Unmodelled
      else if z =? 35 then
        let '(w, r) := span is_word_char s in
        if existsb (str_eqb w) directives then Unmodelled
        else if fits w then Done (L_ERROR, mkY r (typ y) w false) else Undefined
      else if isdigit c then read_number (c :: s) [] false
      else if scr_is_alpha c || is_us c then
        let '(w, r) := span is_word_char (c :: s) in if fits w then token Y_WORD w r else Undefined
      else if z =? 46 then
        match s with
        | d :: _ => if isdigit d then read_number s [c] true else token Y_SPECIAL [c] s
        | [] => token Y_SPECIAL [c] s
        end
      else if z =? 47 then
        match s with
        | d :: s' =>
          if code d =? 42 then
            match skip_comment s' with Some r => token Y_COMMENT (text y) r | None => token Y_EOF (text y) [] end
          else if code d =? 47 then token Y_COMMENT (text y) (skip_to_eol s')
          else token Y_SPECIAL [c] s
        | [] => token Y_SPECIAL [c] s
        end
      else token Y_SPECIAL [c] s
    end.
(** s_ylex.c:76-103 [YY_lex2]. The words of [keys] that are found; the only operators of the tables of this file have one
    character. Each comment that is skipped consumes characters. *)
Fixpoint lex_loop (fuel : nat) (keys : list str) (y : yy) : io (lexed * yy) :=
  match fuel with
  | O => Unmodelled
  | S k =>
    try '(l, y') <- yread y;
    match l with
    | L_TYPE Y_COMMENT => lex_loop k keys y'
    | L_TYPE Y_WORD | L_TYPE Y_SPECIAL =>
      if existsb (str_eqb (text y')) keys then Done (L_KEY (text y'), y') else Done (l, y')
    | _ => Done (l, y')
    end
  end.
Definition lex (keys : list str) (y : yy) : io (lexed * yy) := lex_loop (S (S (length (rest y)))) keys y.

(** * api/utils/yy.cpp *)

Definition is_NA (t : str) : bool := str_eqb t (S2L "na").
(** yy.cpp:24-64 [K_read_real]. The characters / and . are consumed (45-50), the other signs are given back.
    A long is multiplied as a long, a double as a double. Each minus consumes a character. *)
Definition long_of (t : str) : Z := fst (read_digits t 0 O).
Fixpoint real_loop (fuel : nat) (keys : list str) (minus : bool) (y : yy) : io (dbl * yy) :=
  match fuel with
  | O => Unmodelled
  | S k =>
    try '(l, y') <- lex keys y;
    let special :=
      match text y' with
      | c :: _ => if code c =? 45 then real_loop k keys true y'
                  else if (code c =? 47) || (code c =? 46) then Done (d_na, y') else Done (d_na, unread y')
      | [] => Done (d_na, unread y')
      end in
    match l with
    | L_TYPE Y_DOUBLE => Done (if minus then d_mul (d_ofZ (-1)) (scan (text y')) else scan (text y'), y')
    | L_TYPE Y_LONG => Done (d_ofZ (if minus then - long_of (text y') else long_of (text y')), y')
    | L_TYPE Y_SPECIAL => special
    | L_KEY w => if str_eqb w (S2L "-") then special else Done (d_na, unread y')
    | L_TYPE Y_WORD => if is_NA (text y') then Done (d_na, y') else Done (d_na, unread y')
    | _ => Done (d_na, unread y')
    end
  end.
Definition read_real (keys : list str) (y : yy) : io (dbl * yy) := real_loop (S (S (length (rest y)))) keys false y.

(** yy.cpp:134-157 [K_read_per]: None is the null pointer. YY_EOF after the year gives (char) -1. *)
Definition read_per (keys : list str) (y : yy) : io (option period * yy) :=
  try '(l, y1) <- lex keys y;
  match l with
  | L_TYPE Y_LONG =>
    let '(c, r) := match rest y1 with c :: r => (c, r) | [] => (chr 255, []) end in
    try '(l2, y2) <- lex keys (mkY r (typ y1) (text y1) false);
    match l2 with
    | L_TYPE Y_LONG => try p <- of_res (parse_period (text y1 ++ c :: text y2)); Done (Some p, y2)
    | _ => Done (None, y2)
    end
  | _ => Done (None, y1)
  end.
(** yy.cpp:169-203 [K_read_smpl]. *)
Definition read_smpl (keys : list str) (y : yy) : io (option sample * yy) :=
  try '(p, y1) <- read_per keys y;
  match p with
  | None => Done (None, y1)
  | Some p =>
    try '(q, y2) <- read_per keys y1;
    match q with
    | None => Done (None, y2)
    | Some q =>
      try nb <- of_res (difference q p);
      if nb <? 0 then Done (None, y2) else try s <- of_res (make_sample p q); Done (Some s, y2)
    end
  end.

(** s_sttext.c:44-78 [SCR_text]: the position of the last separator among the first [n] characters, then the lines. *)
Definition seps : str := S2L ";,*+-/) ".
Definition is_sep (c : ascii) : bool := existsb (ascii_eqb c) seps.
Fixpoint last_sep (s : str) (n : nat) (i prev : nat) : nat :=
  match n, s with
  | S n', c :: s' => if code c =? 10 then prev else last_sep s' n' (S i) (if is_sep c then i else prev)
  | _, _ => prev
  end.
Fixpoint line_length (s : str) (n : nat) : nat :=
  match n, s with S n', c :: s' => if code c =? 10 then O else S (line_length s' n') | _, _ => O end.
Fixpoint text_lines (fuel : nat) (lg : nat) (s : str) : list str :=
  match fuel with
  | O => []
  | S k =>
    match skip_spaces s with
    | [] => []
    | a =>
      let i := line_length a lg in
      let prev := last_sep a lg 0 0 in
      let cut := if Nat.ltb i (length a) && Nat.leb lg i && Nat.ltb 0 prev then S prev else i in
      firstn cut a :: match skipn cut a with [] => [] | a' => text_lines k lg a' end
    end
  end.
(** s_stmtov.c:68-103 [SCR_mtovs] with a line feed. *)
Fixpoint join (l : list str) : str :=
  match l with [] => [] | [x] => x | x :: l' => x ++ LF :: join l' end.
(** yy.cpp:310-330 [K_wrap]. *)
Definition wrap (t : str) (lg : nat) : str :=
  if existsb (fun c => code c =? 10) t then t else join (text_lines (S (length t)) lg t).

(** * Loading *)

(** kdb.h:1192-1202 [set], 1118-1180 [set_obj_ptr]: None is the exception. *)
Definition set_in {V} (ty : otype) (db : smap V) (name : str) (v : V) : option (smap V) :=
  let key := to_key (mode_of ty) name in
  match key with
  | [] => None
  | _ => match check_name key ty with Ok _ => Some (put key v db) | _ => None end
  end.
(** The name of the object: [yy_text] cut after K_MAX_NAME characters. *)
Definition oname (t : str) : str := firstn (Z.to_nat K_MAX_NAME) t.
(** The loops of the load functions: until YY_EOF, an object after each name, other tokens are skipped.
    [object] returns None when the function returns false. *)
Fixpoint load_loop {V} (fuel : nat) (keys : list str) (object : smap V -> str -> yy -> io (smap V * bool * yy)) (db : smap V)
  (y : yy) : io (bool * smap V) :=
  match fuel with
  | O => Unmodelled
  | S k =>
    try '(l, y') <- lex keys y;
    match l with
    | L_TYPE Y_EOF => Done (true, db)
    | L_TYPE Y_WORD =>
      try '(db', go, y'') <- object db (oname (text y')) y';
      if go : bool then load_loop k keys object db' y'' else Done (false, db')
    | _ => load_loop k keys object db y'
    end
  end.
(** Each step of the loop consumes a character, except that a token may be read a second time. *)
Definition fuel_of (y : yy) : nat := S (S (2 * length (rest y))).
(** "CONTINUE READING UNTIL END OF VALUES"; [stop] is the condition on the words. *)
Fixpoint skip_values (fuel : nat) (keys : list str) (stop : str -> bool) (y : yy) : io yy :=
  match fuel with
  | O => Unmodelled
  | S k =>
    try '(l, y') <- lex keys y;
    match l with
    | L_TYPE Y_EOF => Done (unread y')
    | L_TYPE Y_WORD => if stop (text y') then Done (unread y') else skip_values k keys stop y'
    | _ => skip_values k keys stop y'
    end
  end.
Definition any (t : str) : bool := true.
Definition not_na (t : str) : bool := negb (is_NA t).
Definition add_or_skip {V} (ty : otype) (db : smap V) (name : str) (v : V) : smap V :=
  match set_in ty db name v with Some db' => db' | None => db end.

(** k_cccmt.cpp:30-69 [read_cmt]; k_cclst.cpp [read_lst] is the same with lists. *)
Definition read_text (ty : otype) (db : smap str) (name : str) (y : yy) : io (smap str * bool * yy) :=
  try '(l, y1) <- lex [] y;
  let '(t, y2) := match l with L_TYPE Y_STRING => (wrap (text y1) 60, y1) | _ => ([], unread y1) end in
  try y3 <- skip_values (fuel_of y2) [] any y2;
  Done (add_or_skip ty db name t, true, y3).
(** k_cccmt.cpp:93-144, k_cclst.cpp [load_asc]. *)
Definition load_texts (ty : otype) (file : str) : io (bool * smap str) :=
  let y := opened file in load_loop (fuel_of y) [] (read_text ty) [] y.
Definition load_comments : str -> io (bool * smap str) := load_texts COMMENTS.
Definition load_lists : str -> io (bool * smap str) := load_texts LISTS.

(** k_ccidt.cpp:39-113 [load_asc], identities.h:19-53: [compiles] tells whether the construction of CLEC succeeds;
    when it does not, the formula of the identity is empty. *)
Definition identity_of (compiles : str -> bool) (lec : str) : str := if compiles lec then lec else [].
Definition read_idt (compiles : str -> bool) (db : smap str) (name : str) (y : yy) : io (smap str * bool * yy) :=
  try '(l, y1) <- lex [] y;
  match l with
  | L_TYPE Y_STRING =>
    match set_in IDENTITIES db name (identity_of compiles (wrap (text y1) 60)) with
    | Some db' => Done (db', true, y1)
    | None => Done (db, false, y1)
    end
  | _ => Done (db, true, y1)
  end.
Definition load_identities (compiles : str -> bool) (file : str) : io (bool * smap str) :=
  let y := opened file in load_loop (fuel_of y) [] (read_idt compiles) [] y.

(** scalars.h:13-34; k_ccscl.cpp:31-66 [read_scl], 99-148 [load_asc]. *)
Record scalar := mkScl { value : dbl; relax : dbl; std : dbl }.
Definition d09 : dbl := d_dec 9 1.
Definition or_else (x d : dbl) : dbl := if d_num x then x else d.
Definition read_scl (db : smap scalar) (name : str) (y : yy) : io (smap scalar * bool * yy) :=
  try '(v, y1) <- read_real [] y;
  try '(r, y2) <- read_real [] y1;
  try '(s, y3) <- read_real [] y2;
  try y4 <- skip_values (fuel_of y3) [] any y3;
  Done (add_or_skip SCALARS db name (mkScl (or_else v d09) (or_else r (d_ofZ 1)) s), true, y4).
Definition load_scalars (file : str) : io (bool * smap scalar) :=
  let y := opened file in load_loop (fuel_of y) [] read_scl [] y.

(** ascii.h:40-82 [TABLE]; SMPL is the code of "sample". *)
Definition TABLE : list str :=
  map S2L ["BOLD"; "UNDERLINE"; "CENTER"; "DATE"; "DECIMAL"; "DIM"; "DIV"; "DUTCH"; "ENGLISH"; "FILES"; "FRENCH";
    "ITALIC"; "LEC"; "LEFT"; "LINE"; "LINE BOLD"; "MODE"; "NORMAL"; "RIGHT"; "TITLE"; "{"; "}"; "-"; "YMIN"; "YMAX";
    "ZMIN"; "ZMAX"; "XGRID"; "YGRID"; "BOX"; "AXIS"; "ALIGN"; "LAXIS"; "RAXIS"; "GRLINE"; "GRBAR"; "GRSCATTER";
    "sample"]%string.
(** k_ccvar.cpp:28-66 [read_vec]; the vector has the number of periods of the sample. *)
Fixpoint read_values (n : nat) (y : yy) : io (list dbl * yy) :=
  match n with
  | O => Done ([], y)
  | S k => try '(x, y1) <- read_real TABLE y; try '(l, y2) <- read_values k y1; Done (x :: l, y2)
  end.
Definition read_vec (nb : Z) (db : smap (list dbl)) (name : str) (y : yy) : io (smap (list dbl) * bool * yy) :=
  try '(v, y1) <- read_values (Z.to_nat nb) y;
  try y2 <- skip_values (fuel_of y1) TABLE not_na y1;
  Done (add_or_skip VARIABLES db name v, true, y2).
(** k_ccvar.cpp:80-139 [load_yy] with ask = 0. A sample of 0 periods stops at the first name (121-126). *)
Record vdb := mkVdb { vsample : option sample; vvars : smap (list dbl) }.
Definition no_vars : vdb := mkVdb None [].
Definition read_vec0 (db : smap (list dbl)) (name : str) (y : yy) : io (smap (list dbl) * bool * yy) :=
  Done ([], false, y).
Definition load_variables (file : str) : io (bool * vdb) :=
  try '(l, y) <- lex TABLE (opened file);
  match l with
  | L_KEY w =>
    if str_eqb w (S2L "sample") then
      try '(s, y1) <- read_smpl TABLE y;
      match s with
      | None => Done (false, no_vars)
      | Some s =>
        try '(ok, db) <- load_loop (fuel_of y1) TABLE (if s_nb s =? 0 then read_vec0 else read_vec (s_nb s)) [] y1;
        Done (ok, if ok : bool then mkVdb (Some s) db else no_vars)
      end
    else Done (false, no_vars)
  | _ => Done (false, no_vars)
  end.

(** * Saving *)

(** s_stdhex.c:89-104 [SCR_fprintf_esc] with quotes. *)
Fixpoint escaped (t : str) : str :=
  match t with [] => [] | c :: t' => if (code c =? 34) || (code c =? 92) then BSL :: c :: escaped t' else c :: escaped t' end.
Definition quoted (t : str) : str := QUOTE :: escaped t ++ [QUOTE].
Definition lf_to_sp (c : ascii) : ascii := if code c =? 10 then SP else c.
(** k_cccmt.cpp:157-203: line feeds become blanks. *)
Definition save_comments (db : smap str) : str :=
  flat_map (fun x => fst x ++ SP :: quoted (map lf_to_sp (snd x)) ++ [LF]) db.
(** k_cclst.cpp [save_asc]. *)
Definition save_lists (db : smap str) : str := flat_map (fun x => fst x ++ SP :: quoted (snd x) ++ [LF]) db.
(** k_ccidt.cpp:125-170: the formula is not escaped. *)
Definition save_identities (db : smap str) : str :=
  flat_map (fun x => fst x ++ SP :: QUOTE :: snd x ++ [QUOTE; LF]) db.
(** k_ccscl.cpp:157-173 [print_scl], 185-225. *)
Definition print_val (p : Z) (x : dbl) : str := (if d_num x then print_g p x else S2L "na") ++ [SP].
Definition save_scalars (db : smap scalar) : str :=
  flat_map (fun x => fst x ++ SP :: print_val 14 (value (snd x)) ++ print_val 14 (relax (snd x)) ++
                     print_val 14 (std (snd x)) ++ [LF]) db.
(** k_ccvar.cpp:215-229 [print_val], 240-289; without sample nothing is written and the function returns false. *)
Definition save_vars (s : sample) (db : smap (list dbl)) : str :=
  S2L "sample " ++ period_to_string (s_start s) ++ SP :: period_to_string (s_end s) ++ [LF] ++
  flat_map (fun x => fst x ++ SP :: flat_map (print_val 15) (snd x) ++ [LF]) db.
Definition save_variables (v : vdb) : bool * str :=
  match vsample v with Some s => (true, save_vars s (vvars v)) | None => (false, []) end.
