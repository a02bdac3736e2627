(** Import of variables from files in the format DIF: api/io/k_idif.cpp and the loop of api/io/k_imain.cpp:77-198.
    Simplifications: those of M_Ascii (the reader) and M_Import (rules, names). A pointer or a number that was never set, a text
    already freed and a null pointer are undefined when they are used. *)
From Coq Require Import ZArith Ascii String List Bool Floats.SpecFloat.
From Verif Require Import M_Base M_Report M_Time M_Names M_Lex M_Compile M_Bytes M_Exec M_Double M_Decimal M_Kdb M_Grep M_Ascii M_Import.
Import ListNotations.
Open Scope Z_scope.

(** import.h:51-60: the keywords; the comma is a character, the others are words. *)
Definition DIF_KEYS : list str := [S2L ","; S2L "BOT"; S2L "DATA"; S2L "EOD"; S2L "TABLE"; S2L "TUPLES"; S2L "V"; S2L "VECTORS"].
Definition is_key (l : lexed) (w : string) : bool := match l with L_KEY k => str_eqb k (S2L w) | _ => false end.

(** yy.cpp:71-102 [K_read_long]: each sign consumes a character. A sign is not a keyword here. *)
Fixpoint long_loop (fuel : nat) (minus : bool) (y : yy) : io (Z * yy) :=
  match fuel with
  | O => Unmodelled
  | S k =>
    try '(l, y') <- lex DIF_KEYS y;
    match l with
    | L_TYPE Y_LONG => Done (if minus then - long_of (text y') else long_of (text y'), y')
    | L_TYPE Y_SPECIAL =>
      match text y' with
      | c :: _ => if code c =? 45 then long_loop k true y' else if code c =? 43 then long_loop k false y' else Done (0, unread y')
      | [] => Done (0, unread y')
      end
    | _ => Done (0, unread y')
    end
  end.
Definition read_long (y : yy) : io (Z * yy) := long_loop (S (S (length (rest y)))) false y.
(** yy.cpp:111-120 [K_read_str]: None is the null pointer. *)
Definition read_str (y : yy) : io (option str * yy) :=
  try '(l, y') <- lex DIF_KEYS y;
  Done (match l with L_TYPE Y_STRING => Some (text y') | _ => None end, y').

(** k_idif.cpp:38-48 [dif_skip_to]: whether the keyword is found. YY_ERROR is not an end: the loop goes on. *)
Fixpoint skip_loop (fuel : nat) (w : string) (y : yy) : io (bool * yy) :=
  match fuel with
  | O => Unmodelled
  | S k =>
    try '(l, y') <- lex DIF_KEYS y;
    match l with
    | L_TYPE Y_EOF => Done (false, y')
    | _ => if is_key l "EOD" then Done (false, y') else if is_key l w then Done (true, y') else skip_loop k w y'
    end
  end.
Definition skip_to (w : string) (y : yy) : io (bool * yy) := skip_loop (S (S (length (rest y)))) w y.

(** k_idif.cpp:59-99 [dif_read_cell]: what the cell sets. [want_str]: the caller gives [str] (and a null [value]), or the contrary. *)
Inductive cell := C_FAIL | C_NOTHING | C_STR (t : str) | C_VALUE (x : dbl).
Definition read_cell (want_str : bool) (y : yy) : io (cell * yy) :=
  try '(t, y1) <- read_long y;
  if t =? 0 then
    try '(b, y2) <- skip_to "," y1;
    if negb b then Done (C_FAIL, y2)
    else
      if negb want_str then
        try '(x, y3) <- read_real DIF_KEYS y2;
        try '(_, y4) <- lex DIF_KEYS y3;
        Done (C_VALUE x, y4)
      else
        try '(_, y3) <- lex DIF_KEYS y2;
        try '(_, y4) <- lex DIF_KEYS y3;
        Done (C_STR (text y3), y4)
  else if t =? 1 then
    try '(b, y2) <- skip_to "," y1;
    if negb b then Done (C_FAIL, y2)
    else
      try '(_, y3) <- read_long y2;
      try '(s, y4) <- read_str y3;
      if want_str then Done (match s with Some u => C_STR u | None => C_FAIL end, y4) else Undefined
  else if t =? -1 then
    try '(b, y2) <- skip_to "BOT" y1;
    Done (if b then C_NOTHING else C_FAIL, y2)
  else Done (C_FAIL, y1).

(** k_idif.cpp:109-179 [read_header]. The periods: at the second one, 142 assigns the periodicity of the first one, which is not
    zero, and the function fails. [k]: periods still to read; [first]: the first period. None: the function returns -1. *)
Definition dif_periods (n : Z) (y : yy) : io (option (option period) * yy) :=
  if n <=? 0 then Done (Some None, y)
  else
    try '(c, y1) <- read_cell true y;
    match c with
    | C_STR t =>
      try p <- of_res (parse_period t);
      if n =? 1 then Done (Some (Some p), y1)
      else
        try '(c2, y2) <- read_cell true y1;
        match c2 with
        | C_STR t2 => try _ <- of_res (parse_period t2); Done (None, y2)
        | _ => Undefined
        end
    | _ => Undefined
    end.
(** (int) value - 1. *)
Definition dim_of (c : cell) : io (option Z) :=
  match c with
  | C_VALUE x => match d_trunc x with Some z => Done (Some (z - 1)) | None => Undefined end
  | C_FAIL => Done None
  | _ => Undefined
  end.
Definition read_header (y : yy) : io (option sample * yy) :=
  try '(l, y0) <- lex DIF_KEYS y;
  if negb (is_key l "TABLE") then Done (None, y0)
  else
    try '(b, y1) <- skip_to "VECTORS" y0;
    if negb b then Done (None, y1)
    else
      try '(c, y2) <- read_cell false y1;
      try ny <- dim_of c;
      match ny with
      | None => Done (None, y2)
      | Some ny =>
        try '(b, y3) <- skip_to "TUPLES" y2;
        if negb b then Done (None, y3)
        else
          try '(c, y4) <- read_cell false y3;
          try nl <- dim_of c;
          match nl with
          | None => Done (None, y4)
          | Some _ =>
            try '(b, y5) <- skip_to "BOT" y4;
            if negb b then Done (None, y5)
            else
              try '(c, y6) <- read_cell true y5;
              match c with
              | C_STR _ =>
                try '(p, y7) <- dif_periods ny y6;
                match p with
                | None => Done (None, y7)
                | Some None => Done (None, y7)      (* no period: Sample(per1, per2) throws and is caught *)
                | Some (Some p) =>
                  match make_sample p p with
                  | Ok s =>
                    if negb (ny =? s_nb s) then Done (None, y7)
                    else try '(b, y8) <- skip_to "BOT" y7; Done (if b then Some s else None, y8)
                  | Throw => Done (None, y7)
                  | UB => Undefined
                  end
                end
              | _ => Undefined
              end
          end
      end.

(** k_idif.cpp:190-212 [read_variable]: a cell that sets nothing repeats the value before it, if any. *)
Fixpoint dif_values (n : nat) (last : option dbl) (y : yy) : io (option (list dbl) * yy) :=
  match n with
  | O => Done (Some [], y)
  | S k =>
    try '(c, y1) <- read_cell false y;
    match c with
    | C_FAIL => Done (None, y1)
    | C_STR _ => Undefined
    | C_VALUE x => try '(l, y2) <- dif_values k (Some x) y1; Done (option_map (cons x) l, y2)
    | C_NOTHING =>
      match last with
      | Some x => try '(l, y2) <- dif_values k last y1; Done (option_map (cons x) l, y2)
      | None => Undefined
      end
    end
  end.
Definition read_variable (nb : nat) (y : yy) : io (option (str * list dbl) * yy) :=
  try '(c, y1) <- read_cell true y;
  match c with
  | C_STR n =>
    try '(l, y2) <- dif_values nb None y1;
    match l with
    | None => Done (None, y2)
    | Some l => try '(_, y3) <- skip_to "BOT" y2; Done (Some (firstn 79 n, l), y3)
    end
  | _ => Done (None, y1)
  end.
(** k_imain.cpp:113-198: the null pointer [kdb] is used when the header is wrong. *)
Fixpoint import_dif_loop (fuel : nat) (nb : nat) (rs : rules) (db : smap (list dbl)) (y : yy) : io (smap (list dbl)) :=
  match fuel with
  | O => Unmodelled
  | S k =>
    try '(v, y1) <- read_variable nb y;
    match v with
    | None => Done db
    | Some (n, l) => try db' <- of_res (import_one rs db n l); import_dif_loop k nb rs db' y1
    end
  end.
Definition import_dif (rulefile : option str) (file : str) : io vdb :=
  try rs <- of_res (IMP_readrule rulefile);
  try '(s, y) <- read_header (opened file);
  match s with
  | None => Undefined
  | Some s => try db <- import_dif_loop (fuel_of y) (Z.to_nat (s_nb s)) rs [] y; Done (mkVdb (Some s) db)
  end.
