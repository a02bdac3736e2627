(** Lexical analysis of LEC formulas (scr4/s_yread.c, s_ylex.c, s_ybase.c, api/lec/l_token.cpp). *)
From Coq Require Import ZArith Ascii String List Bool Lia.
From Verif Require Import M_Base M_Time M_Names.
Import ListNotations.
Open Scope Z_scope.

(** api/lec/l_exec_ops.h, l_exec_fns.h, l_exec_tfn.h, l_exec_val.h, l_exec_mtfn.h: keywords. *)
Inductive opr := Oor | Oand | Oge | Ogt | Ole | Olt | Oeq | One | Oplus | Ominus | Odivide | Otimes | Oexp.
Inductive fnr := Fuminus | Fuplus | Flog | Fln | Fnot | Fexpn | Fmax | Fmin | Fsin | Fcos | Facos | Fasin
  | Ftan | Fatan | Ftanh | Fsinh | Fcosh | Fabs | Fsqrt | Fint | Frad | Fif | Flsum | Flmean | Fisan | Flcount
  | Flprod | Fsign | Flstderr | Frandom | Ffloor | Fceil | Fround | Furandom | Fgrandom | Fgamma | Fdiv0.
Inductive tfnr := Flag | Fdiff | Frapp | Fdln | Fgrt | Fmavg | Fvmax | Fvmin | Fsum | Fprod | Fmean
  | Fstderr | Fdlag | Flastobs.
Inductive valr := Vpi | Ve | Vtime | Vi | Veuro.
Inductive mtfnr := Fcorr | Fcovar | Fcovar0 | Fvariance | Fstddev | Findex | Facf | Finterpol | Fapp
  | Fhp | Fdapp | Fhpstd.

(** Tokens returned by [L_get_token] with the contents of [L_TOKEN].
    A real constant keeps its text; [T_UNMODELLED] stands for macros ($name), quoted lists ('A*')
    and the # directives, which read other workspaces or files. *)
Inductive token :=
| T_EOF | T_EOE | T_OPENP | T_CLOSEP | T_OPENB | T_CLOSEB | T_COMMA | T_OCPAR | T_COLON
| T_OP (o : opr) | T_FN (f : fnr) | T_TFN (f : tfnr) | T_MTFN (f : mtfnr) | T_VAL (v : valr)
| T_VAR (name : str) | T_COEF (name : str) | T_LCONST (n : Z) | T_DCONST (text : str)
| T_PERIOD (p : period) | T_ERR | T_UNMODELLED.

(** api/lec/l_token.h:27-122 [L_TABLE], words. *)
Definition keywords : list (str * token) :=
  [ (S2L "abs", T_FN Fabs); (S2L "acf", T_MTFN Facf); (S2L "acos", T_FN Facos); (S2L "and", T_OP Oand);
    (S2L "app", T_MTFN Fapp); (S2L "appdif", T_MTFN Fdapp); (S2L "asin", T_FN Fasin); (S2L "atan", T_FN Fatan);
    (S2L "ceil", T_FN Fceil); (S2L "cos", T_FN Fcos); (S2L "cosh", T_FN Fcosh); (S2L "corr", T_MTFN Fcorr);
    (S2L "covar", T_MTFN Fcovar); (S2L "covar0", T_MTFN Fcovar0); (S2L "d", T_TFN Fdiff); (S2L "dapp", T_MTFN Fdapp);
    (S2L "dlag", T_TFN Fdlag); (S2L "dln", T_TFN Fdln); (S2L "e", T_VAL Ve); (S2L "euro", T_VAL Veuro);
    (S2L "exp", T_FN Fexpn); (S2L "gamma", T_FN Fgamma); (S2L "div0", T_FN Fdiv0); (S2L "grandom", T_FN Fgrandom);
    (S2L "grt", T_TFN Fgrt); (S2L "hp", T_MTFN Fhp); (S2L "hpstd", T_MTFN Fhpstd); (S2L "if", T_FN Fif);
    (S2L "index", T_MTFN Findex); (S2L "int", T_FN Fint); (S2L "interpol", T_MTFN Finterpol); (S2L "isan", T_FN Fisan);
    (S2L "floor", T_FN Ffloor); (S2L "l", T_TFN Flag); (S2L "lastobs", T_TFN Flastobs); (S2L "ln", T_FN Fln);
    (S2L "lcount", T_FN Flcount); (S2L "lmean", T_FN Flmean); (S2L "log", T_FN Flog); (S2L "lprod", T_FN Flprod);
    (S2L "lstderr", T_FN Flstderr); (S2L "lsum", T_FN Flsum); (S2L "ma", T_TFN Fmavg); (S2L "mavg", T_TFN Fmavg);
    (S2L "max", T_FN Fmax); (S2L "mean", T_TFN Fmean); (S2L "min", T_FN Fmin); (S2L "not", T_FN Fnot);
    (S2L "or", T_OP Oor); (S2L "pi", T_VAL Vpi); (S2L "prod", T_TFN Fprod); (S2L "r", T_TFN Frapp);
    (S2L "rad", T_FN Frad); (S2L "random", T_FN Frandom); (S2L "round", T_FN Fround); (S2L "sign", T_FN Fsign);
    (S2L "sin", T_FN Fsin); (S2L "sinh", T_FN Fsinh); (S2L "sqrt", T_FN Fsqrt); (S2L "stddev", T_MTFN Fstddev);
    (S2L "stderr", T_TFN Fstderr); (S2L "sum", T_TFN Fsum); (S2L "t", T_VAL Vtime); (S2L "tan", T_FN Ftan);
    (S2L "tanh", T_FN Ftanh); (S2L "urandom", T_FN Furandom); (S2L "var", T_MTFN Fvariance); (S2L "vmax", T_TFN Fvmax);
    (S2L "vmin", T_TFN Fvmin); (S2L "i", T_VAL Vi) ].

Definition ascii_eqb (a b : ascii) : bool := code a =? code b.
Fixpoint str_eqb (a b : str) : bool :=
  match a, b with
  | [], [] => true
  | x :: a', y :: b' => ascii_eqb x y && str_eqb a' b'
  | _, _ => false
  end.

(** scr4/s_ylex.c:47-58 [YY_find_string] (binary search in the sorted table: exact word). *)
Fixpoint find_string (w : str) (tab : list (str * token)) : option token :=
  match tab with
  | [] => None
  | (k, t) :: tab' => if str_eqb w k then Some t else find_string w tab'
  end.

(** Characters delivered by [YY_getc] on a memory stream, scr4/s_ybase.c:285-333.
    Simplified: a tabulation gives one blank instead of one to eight. *)
Fixpoint yy_chars (s : str) : str :=
  match s with
  | [] => []
  | c :: s' =>
    if code c =? 0 then []
    else if (code c =? 13) || (code c =? 26) then yy_chars s'
    else if code c =? 9 then chr 32 :: yy_chars s'
    else c :: yy_chars s'
  end.

(** scr4/s_stuppr.c:115-120 [SCR_is_space] is the set of [isspace];
    scr4/s_stisal.c:17-24 [SCR_is_alpha] with scr4/s_stuppr.c:42-92 [SCR_upper_char]:
    letters and the accented letters of the OEM code page. *)
Definition oem_letters : list Z :=
  [210; 211; 212; 144; 130; 138; 137; 136; 160; 133; 131; 181; 183; 182; 142; 132; 214; 222; 215; 216; 161;
   141; 140; 139; 224; 227; 226; 153; 162; 149; 148; 147; 233; 235; 234; 154; 163; 150; 151; 129; 135].
Definition scr_is_alpha (c : ascii) : bool := isalpha c || existsb (Z.eqb (code c)) oem_letters.
Definition is_word_char (c : ascii) : bool := scr_is_alpha c || isdigit c || is_us c.

(** Longest prefix satisfying [p], and the rest. *)
Fixpoint span (p : ascii -> bool) (s : str) : str * str :=
  match s with
  | c :: s' => if p c then let '(a, b) := span p s' in (c :: a, b) else ([], s)
  | [] => ([], [])
  end.

(** scr4/s_yread.c:11-31 [YY_comment]: None when the end of text is reached. *)
Fixpoint skip_comment (s : str) : option str :=
  match s with
  | [] => None
  | c :: s' =>
    if code c =? 42 then
      match s' with
      | d :: s'' => if code d =? 47 then Some s'' else skip_comment s'
      | [] => None
      end
    else skip_comment s'
  end.
(** scr4/s_yread.c:148-157 [YY_skip_to_char] with '\n'. *)
Fixpoint skip_to_eol (s : str) : str :=
  match s with
  | [] => []
  | c :: s' => if code c =? 10 then s' else skip_to_eol s'
  end.

(** scr4/s_yread.c:645-700 [YY_read_num]: text of the number, "is a real" flag, rest. *)
Fixpoint read_num (s : str) (dbl ee : bool) : str * bool * str :=
  match s with
  | [] => ([], dbl, [])
  | c :: s' =>
    if isdigit c then let '(t, d, r) := read_num s' dbl ee in (c :: t, d, r)
    else if (code c =? 101) || (code c =? 69) then
      if ee then ([], dbl, s)
      else
        match s' with
        | g :: s'' =>
          if (code g =? 45) || (code g =? 43)
          then let '(t, d, r) := read_num s'' true true in (chr 69 :: g :: t, d, r)
          else let '(t, d, r) := read_num s' true true in (chr 69 :: t, d, r)
        | [] => ([chr 69], true, [])
        end
    else if code c =? 46 then
      if dbl then ([], dbl, s) else let '(t, d, r) := read_num s' true ee in (c :: t, d, r)
    else ([], dbl, s)
  end.

(** Result of [YY_read]. *)
Inductive raw :=
| R_EOF | R_WORD (w : str) | R_LONG (n : Z) | R_DOUBLE (t : str) | R_SPECIAL (c : ascii)
| R_COMMENT | R_OTHER | R_UNMODELLED.

Definition num_raw (text : str) (dbl : bool) : raw :=
  if negb dbl && (Z.of_nat (length text) <? 10) then R_LONG (fst (read_digits text 0 O)) else R_DOUBLE text.

(** Words after # that start a directive, scr4/s_yread.c:404-441. *)
Definition directives : list str :=
  [S2L "include"; S2L "define"; S2L "ifdef"; S2L "ifndef"; S2L "endif"; S2L "else"; S2L "debug"].

(** scr4/s_yread.c:353-487 [YY_read]. *)
Definition yy_read (s : str) : raw * str :=
  match skip_spaces s with
  | [] => (R_EOF, [])
  | c :: s' =>
    let z := code c in
    if z =? 34 then (R_OTHER, s')                               (* string: never valid in LEC *)
    else if (z =? 39) || (z =? 36) then (R_UNMODELLED, s')
    else if z =? 35 then
      let '(w, r) := span is_word_char s' in
      if existsb (str_eqb w) directives then (R_UNMODELLED, r) else (R_OTHER, r)
    else if isdigit c then
      let '(t, d, r) := read_num (c :: s') false false in (num_raw t d, r)
    else if scr_is_alpha c || is_us c then let '(w, r) := span is_word_char (c :: s') in (R_WORD w, r)
    else if z =? 46 then
      match s' with
      | d :: _ => if isdigit d then let '(t, _, r) := read_num s' true false in (R_DOUBLE (c :: t), r)
                  else (R_SPECIAL c, s')
      | [] => (R_SPECIAL c, s')
      end
    else if z =? 47 then
      match s' with
      | d :: s'' =>
        if code d =? 42 then
          match skip_comment s'' with Some r => (R_COMMENT, r) | None => (R_EOF, []) end
        else if code d =? 47 then (R_COMMENT, skip_to_eol s'')
        else (R_SPECIAL c, s')
      | [] => (R_SPECIAL c, s')
      end
    else (R_SPECIAL c, s')
  end.

(** scr4/s_ylex.c:21-39 [YY_find_oper] on [L_TABLE]: blanks are skipped before the second character,
    so the entries "+ " and "- " are never found. *)
Definition find_oper (c : ascii) (s : str) : token * str :=
  let two (one : token) (alts : list (Z * token)) :=
    match skip_spaces s with
    | d :: s' =>
      match find (fun a => fst a =? code d) alts with
      | Some (_, t) => (t, s')
      | None => (one, d :: s')
      end
    | [] => (one, [])
    end in
  let z := code c in
  if z =? 33 then two (T_FN Fnot) [(61, T_OP One)]
  else if z =? 40 then two T_OPENP [(41, T_OCPAR)]
  else if z =? 41 then (T_CLOSEP, s)
  else if z =? 42 then two (T_OP Otimes) [(42, T_OP Oexp)]
  else if z =? 43 then two (T_OP Oplus) []
  else if z =? 44 then (T_COMMA, s)
  else if z =? 47 then (T_OP Odivide, s)
  else if z =? 58 then (T_COLON, s)
  else if z =? 59 then (T_EOE, s)
  else if z =? 60 then two (T_OP Olt) [(61, T_OP Ole); (62, T_OP One)]
  else if z =? 61 then (T_OP Oeq, s)
  else if z =? 62 then two (T_OP Ogt) [(61, T_OP Oge)]
  else if z =? 45 then two (T_OP Ominus) []
  else if z =? 91 then (T_OPENB, s)
  else if z =? 93 then (T_CLOSEB, s)
  else if z =? 94 then (T_OP Oexp, s)
  else (T_ERR, s).

(** api/time/period.h:34 [L_Period_NB] by position in [periodicities]. *)
Definition lex_period_nb (c : ascii) : option Z :=
  match nb_per_year (toupper c) with Ok n => Some n | _ => None end.

(** api/lec/l_token.cpp:259-290 [L_get_int]. *)
Definition get_int (n : Z) (s : str) : token * str :=
  match s with
  | c :: s' =>
    match lex_period_nb c with
    | Some nb =>
      match yy_read s' with
      | (R_LONG k, r) =>
        if (nb <? k) || (k =? 0) then (T_ERR, r)
        else
          let y := if n <? 50 then n + 2000 else if n <? 200 then n + 1900 else n in
          (T_PERIOD (mkP y k (toupper c)), r)
      | (_, r) => (T_ERR, r)
      end
    | None => (T_LCONST n, s)
    end
  | [] => (T_LCONST n, s)
  end.

(** api/lec/l_token.cpp:345-399 [L_get_token] (with [YY_lex2], scr4/s_ylex.c:76-102);
    [SCR_strlcpy(tk_name, text, 20)] keeps 20 characters. *)
Fixpoint get_token_aux (fuel : nat) (s : str) : token * str :=
  match fuel with
  | O => (T_ERR, s)
  | S f =>
    match yy_read s with
    | (R_COMMENT, r) => get_token_aux f r
    | (R_EOF, r) => (T_EOF, r)
    | (R_WORD w, r) =>
      match find_string w keywords with
      | Some t => (t, r)
      | None => ((if is_coefficient w then T_COEF (firstn 20 w) else T_VAR (firstn 20 w)), r)
      end
    | (R_LONG n, r) => get_int n r
    | (R_DOUBLE t, r) => (T_DCONST t, r)
    | (R_SPECIAL c, r) => find_oper c r
    | (R_OTHER, r) => (T_ERR, r)
    | (R_UNMODELLED, r) => (T_UNMODELLED, r)
    end
  end.
Definition get_token (s : str) : token * str := get_token_aux (S (length s)) s.

(** The token sequence read by the compiler up to the end of the text, an end-of-expression mark or
    the first lexical error. *)
Fixpoint lex_aux (fuel : nat) (s : str) : list token :=
  match fuel with
  | O => [T_ERR]
  | S f =>
    match get_token s with
    | (T_EOF, _) => [T_EOF]
    | (T_EOE, _) => [T_EOE]
    | (T_ERR, _) => [T_ERR]
    | (T_UNMODELLED, _) => [T_UNMODELLED]
    | (t, r) => t :: lex_aux f r
    end
  end.
Definition lex (text : str) : list token :=
  let s := yy_chars text in lex_aux (S (length s)) s.
