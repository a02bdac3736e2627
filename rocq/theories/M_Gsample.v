(** Generalised samples (the columns of a printed table) and the cells of a table: api/gsample/c_cc.cpp and c_calc.cpp.

    Simplifications: memory never runs out; the messages are left out; a table is the list of the formulas of one line.
    The clock of the machine (today's date and the number of the week) is a parameter. *)
From Coq Require Import ZArith Ascii String List Bool.
From Verif Require Import M_Base M_Time M_Names M_Lex M_Ascii.
Import ListNotations.
Open Scope Z_scope.

(** * The reader *)

(** gsample.h:32-47 [IodeColOperation], up to COL_BASE. *)
Inductive gop := NOP | DIFF | MDIFF | MEAN | GRT | MGRT | ADD | BASE.
(** gsample.h:13-29 [IodeColLangElement], the operations, and the types of [YY_lex] that the compiler tells apart. *)
Inductive gtok :=
  OBRACK | CBRACK | OPAR | CPAR | COLON | COMMA | STAR | SHIFTL | SHIFTR
| BOS | EOS | NOW | BOS1 | EOS1 | NOW1 | PER | SUBPER
| OP (o : gop) | LONG (z : Z) | EOFT | OTHER.

(** What is read is the text that remains and the global variable YY_COMMENT2 (s_yread.c:3). *)
Record gst := mkG { gy : yy; gc : bool }.

(** s_yread.c:338-487 [YY_read]: [yread] is the case YY_COMMENT2 = 1; otherwise two slashes are no comment (379). *)
Definition gread (s : gst) : io (lexed * yy) :=
  if gc s || reread (gy s) then yread (gy s)
  else match skip_spaces (rest (gy s)) with
       | c :: d :: r => if (code c =? 47) && (code d =? 47) then token Y_SPECIAL [c] (d :: r) else yread (gy s)
       | _ => yread (gy s)
       end.

(** c_cc.cpp:72-129 [COL_KEYWS]: the words, and the operators of one character. *)
Definition WORDS : list (str * gtok) := map (fun '(w, t) => (S2L w, t))
 ([ ("EOS", EOS); ("EOSM", EOS); ("EOSQ", EOS); ("EOSW", EOS); ("EOS1", EOS1); ("EOSM1", EOS1); ("EOSQ1", EOS1);
    ("EOSW1", EOS1); ("BOS", BOS); ("BOSM", BOS); ("BOSQ", BOS); ("BOSW", BOS); ("BOS1", BOS1); ("BOSM1", BOS1);
    ("BOSQ1", BOS1); ("BOSW1", BOS1); ("NOW", NOW); ("NOWM", NOW); ("NOWQ", NOW); ("NOWW", NOW); ("NOW1", NOW1);
    ("NOWM1", NOW1); ("NOWQ1", NOW1); ("NOWW1", NOW1); ("PER", PER); ("P", PER); ("S", SUBPER); ("SUB", SUBPER) ]%string).
Fixpoint word_key (l : list (str * gtok)) (w : str) : gtok :=
  match l with [] => OTHER | (k, t) :: l' => if str_eqb k w then t else word_key l' w end.
Definition sign_key (c : ascii) : gtok :=
  let z := code c in
  if z =? 91 then OBRACK else if z =? 93 then CBRACK else if z =? 40 then OPAR else if z =? 41 then CPAR
  else if z =? 58 then COLON else if z =? 59 then COMMA else if z =? 42 then STAR
  else if z =? 60 then SHIFTL else if z =? 62 then SHIFTR else if z =? 45 then OP DIFF
  else if (z =? 126) || (z =? 94) then OP MEAN else if z =? 43 then OP ADD else if z =? 61 then OP BASE
  else if z =? 47 then OP GRT else OTHER.
(** s_ylex.c:21-39 [YY_find_oper] on the sorted table: the only keys that are followed by a key with the same first
    character are - and /; blanks are skipped before the second character. *)
Definition find_sign (c : ascii) (r : str) : gtok * str :=
  if (code c =? 45) || (code c =? 47) then
    match skip_spaces r with
    | d :: r' => if code d =? code c then (OP (if code c =? 45 then MDIFF else MGRT), r') else (sign_key c, d :: r')
    | [] => (sign_key c, [])
    end
  else (sign_key c, r).
(** s_ylex.c:76-103 [YY_lex2] with YY_CASE_SENSITIVE = 1 (c_cc.cpp:1209). Each comment that is skipped consumes characters. *)
Fixpoint glex_loop (fuel : nat) (s : gst) : io (gtok * gst) :=
  match fuel with
  | O => Unmodelled
  | S k =>
    try '(l, y) <- gread s;
    let st := mkG y (gc s) in
    match l with
    | L_TYPE Y_COMMENT => glex_loop k st
    | L_TYPE Y_WORD => Done (word_key WORDS (text y), st)
    | L_TYPE Y_SPECIAL =>
      match text y with
      | c :: _ => let '(t, r) := find_sign c (rest y) in Done (t, mkG (mkY r (typ y) (text y) false) (gc s))
      | [] => Done (OTHER, st)
      end
    | L_TYPE Y_LONG => Done (LONG (long_of (text y)), st)
    | L_TYPE Y_EOF => Done (EOFT, st)
    | _ => Done (OTHER, st)
    end
  end.
Definition glex (s : gst) : io (gtok * gst) := glex_loop (S (S (length (rest (gy s))))) s.
Definition gunread (s : gst) : gst := mkG (unread (gy s)) (gc s).
(** s_ybase.c:285-333, 246-255 [YY_getc], [YY_ungetc] of the character just read: None is YY_EOF. *)
Definition getch (s : gst) : option ascii * gst :=
  match rest (gy s) with
  | c :: r => (Some c, mkG (mkY r (typ (gy s)) (text (gy s)) (reread (gy s))) (gc s))
  | [] => (None, s)
  end.
Definition ungetch (c : option ascii) (s : gst) : gst :=
  match c with
  | Some c => mkG (mkY (c :: rest (gy s)) (typ (gy s)) (text (gy s)) (reread (gy s))) (gc s)
  | None => s
  end.
(** s_yread.c:84-93 [YY_skip_spaces]. *)
Definition gskip (s : gst) : gst :=
  mkG (mkY (skip_spaces (rest (gy s))) (typ (gy s)) (text (gy s)) (reread (gy s))) (gc s).

(** The functions of the compiler return a null pointer or -1 on a syntax error: None. *)
Definition gio (X : Type) : Type := io (option X * gst).
Definition gret {X} (x : X) (s : gst) : gio X := Done (Some x, s).
Definition gfail {X} (s : gst) : gio X := Done (None, s).
Definition gbind {X Y} (r : gio X) (f : X -> gst -> gio Y) : gio Y :=
  try '(o, s) <- r; match o with Some x => f x s | None => Done (None, s) end.

(** * Periods *)

(** The sample of the workspace (None: there is none), today's date as yyyymmdd and DT_week_number of it. *)
Record genv := mkE { e_sample : option sample; e_date : Z; e_week : Z }.
Definition need {X} (o : option X) : io X := match o with Some x => Done x | None => Undefined end.

(** c_cc.cpp:724-746 [COL_calc_subper]. *)
Definition calc_subper (e : genv) : io Z :=
  try smp <- need (e_sample e);
  let p := code (per (s_start smp)) in
  let month := Z.rem (Z.quot (e_date e) 100) 100 in
  Done (if p =? 77 then month else if p =? 81 then 1 + Z.quot (month - 1) 3
        else if p =? 87 then (if e_week e =? 0 then 53 else e_week e) else 1).
(** c_cc.cpp:478-502 [COL_calc_now]. *)
Definition calc_now (e : genv) : io period :=
  try smp <- need (e_sample e);
  let p := s_start smp in
  let y := Z.quot (e_date e) 10000 in
  let month := Z.rem (Z.quot (e_date e) 100) 100 in
  let z := code (per p) in
  Done (if z =? 77 then mkP y month (per p)
        else if z =? 81 then mkP y (1 + Z.quot (month - 1) 3) (per p)
        else if z =? 87 then (if e_week e =? 0 then mkP (y - 1) 53 (per p) else mkP y (e_week e) (per p))
        else mkP y (step p) (per p)).
(** c_cc.cpp:520-532 [COL_read_long_per]: a negative result is the error of the callers. *)
Definition read_long_per (e : genv) (s : gst) : io (Z * gst) :=
  try '(t, s1) <- glex s;
  match t with
  | LONG z => Done (z, s1)
  | PER => try smp <- need (e_sample e); try n <- of_res (nb_per_year (per (s_start smp))); Done (n, s1)
  | SUBPER => try n <- calc_subper e; Done (n, s1)
  | _ => Done (-1, s1)
  end.

(** period.h:17, 31 [periodicities], [L_Period_NB]. *)
Definition per_count (c : ascii) : option Z :=
  let z := code c in
  if z =? 89 then Some 1 else if z =? 83 then Some 2 else if z =? 81 then Some 4
  else if z =? 77 then Some 12 else if z =? 87 then Some 52 else if z =? 68 then Some 365 else None.
Definition first_step (p : period) (s : Z) : period := mkP (year p) s (per p).
(** c_cc.cpp:623-660: the shifts that follow a period; [c] is the character already read. Each one consumes a character. *)
Fixpoint read_shifts (fuel : nat) (e : genv) (p : period) (c : option ascii) (s : gst) : gio period :=
  match fuel with
  | O => Unmodelled
  | S k =>
    let sign := match c with
                | Some c => if code c =? 60 then Some (-1) else if code c =? 62 then Some 1 else None
                | None => None
                end in
    match sign with
    | None => gret p (ungetch c s)
    | Some sg =>
      try '(n, s1) <- read_long_per e s;
      if n <? 0 then gfail s1
      else
        try q <- (if n =? 0 then
                    if 0 <? sg then try nb <- of_res (nb_per_year (per p)); Done (first_step p nb) else Done (first_step p 1)
                  else of_res (shift p (sg * n)));
        let '(d, s2) := getch (gskip s1) in
        read_shifts k e q d s2
    end
  end.
(** c_cc.cpp:551-661 [COL_read_per]. *)
Definition read_gper (e : genv) (s : gst) : gio period :=
  try '(t, s1) <- glex s;
  try start <-
    match t with
    | LONG z => Done (Some (mkP (if z <? 50 then z + 2000 else if z <? 200 then z + 1900 else z) 1 (chr 89)))
    | EOS => try smp <- need (e_sample e); Done (Some (s_end smp))
    | EOS1 => try smp <- need (e_sample e); Done (Some (first_step (s_end smp) 1))
    | BOS => try smp <- need (e_sample e); Done (Some (s_start smp))
    | BOS1 => try smp <- need (e_sample e); Done (Some (first_step (s_start smp) 1))
    | NOW => try p <- calc_now e; Done (Some p)
    | NOW1 => try p <- calc_now e; Done (Some (first_step p 1))
    | _ => Done None
    end;
  match start with
  | None => gfail s1
  | Some p =>
    let '(c, s2) := getch s1 in
    let up := match c with Some c => if (97 <=? code c) && (code c <=? 122) then chr (code c - 32) else c | None => nul end in
    match per_count up with
    | Some nb =>
      try '(t2, s3) <- glex s2;
      match t2 with
      | LONG z =>
        if (z <? 1) || (nb <? z) then gfail s3
        else let '(d, s4) := getch (gskip s3) in
             read_shifts (S (S (length (rest (gy s4))))) e (mkP (year p) z up) d s4
      | _ => gfail s3
      end
    | None => read_shifts (S (S (length (rest (gy s2))))) e p c s2
    end
  end.

(** * Columns *)

(** gsample.h:56-62 [COL], without the values. In [FIL] and [COL_FILS] (gsample.h:99-104, c_cc.cpp:940) no operation
    may be the number 0, which is no operation at all: None. *)
Record fil := mkF { fl_op : option gop; fl_1 : Z; fl_2 : Z }.
Record col := mkC { opy : gop; per0 : period; per1 : period; opf : option gop; fnb0 : Z; fnb1 : Z }.
(** gsample.h:92-96 [REP]: two shorts. *)
Record rep := mkR { r_nb : Z; r_incr : Z }.

(** c_cc.cpp:677-713 [COL_read_y]: YY_COMMENT2 is put back only after an operator (702). *)
Definition read_y (e : genv) (s : gst) : gio (list col) :=
  gbind (read_gper e s) (fun p s1 =>
  try '(t, s2) <- glex (mkG (gy s1) false);
  match t with
  | OP NOP => Unmodelled (* no key of the table *)
  | OP o =>
    gbind (read_gper e (mkG (gy s2) (gc s1))) (fun q s3 => gret [mkC o p q None 0 0] s3)
  | _ => gret [mkC NOP p period0 None 0 0] (gunread s2)
  end).

(** c_cc.cpp:761-794 [COL_read_rep]. *)
Definition read_rep (e : genv) (s : gst) : gio rep :=
  try '(n, s1) <- read_long_per e s;
  let nb := to_short n in
  if nb <? 0 then gfail s1
  else
    try '(t, s2) <- glex s1;
    match t with
    | STAR =>
      try '(t2, s3) <- glex s2;
      let '(sg, s4) := match t2 with OP DIFF => (-1, s3) | _ => (1, gunread s3) end in
      try '(i, s5) <- read_long_per e s4;
      let incr := to_short i in
      if incr <? 0 then gfail s5 else gret (mkR nb (to_short (incr * sg))) s5
    | _ => gret (mkR nb 1) (gunread s2)
    end.

(** c_cc.cpp:814-841 [COL_read_1f]. *)
Definition read_1f (s : gst) : gio fil :=
  try '(t, s1) <- glex s;
  match t with
  | LONG z =>
    if (z <? 1) || (10 <? z) then gfail s1
    else
      try '(t2, s2) <- glex s1;
      let second o := try '(t3, s3) <- glex s2;
                      match t3 with LONG z2 => gret (mkF (Some o) z (to_short z2)) s3 | _ => gfail s3 end in
      match t2 with
      | OP ADD => second ADD | OP DIFF => second DIFF | OP GRT => second GRT | OP MEAN => second MEAN | OP BASE => second BASE
      | _ => gret (mkF (Some NOP) z 0) (gunread s2)
      end
  | _ => gfail s1
  end.
(** c_cc.cpp:863-887 [COL_read_f]. Each file consumes a character. *)
Fixpoint read_f (fuel : nat) (acc : list fil) (s : gst) : gio (list fil) :=
  match fuel with
  | O => Unmodelled
  | S k =>
    gbind (read_1f s) (fun f s1 =>
    try '(t, s2) <- glex s1;
    match t with
    | COMMA => read_f k (acc ++ [f]) s2
    | CBRACK => gret (acc ++ [f]) s2
    | _ => gfail s2
    end)
  end.

(** c_cc.cpp:908-936 [COL_shift]: [nb] changes its sign at each column (926). *)
Fixpoint shift_cols (left : bool) (nb : Z) (l : list col) : res (list col) :=
  match l with
  | [] => Ok []
  | c :: l' =>
    if nb =? 0 then
      do n <- (if left then Ok 1 else nb_per_year (per (per0 c)));
      do r <- shift_cols left nb l';
      Ok (mkC (opy c) (first_step (per0 c) n) (first_step (per1 c) n) (opf c) (fnb0 c) (fnb1 c) :: r)
    else
      let nb' := if left then - nb else nb in
      do p <- shift (per0 c) nb';
      do q <- (match opy c with NOP => Ok (per1 c) | _ => shift (per1 c) nb' end);
      do r <- shift_cols left nb' l';
      Ok (mkC (opy c) p q (opf c) (fnb0 c) (fnb1 c) :: r)
  end.

(** c_cc.cpp:457-465, 966-1034 [COL_apply_fil], [COL_construct]: the shifts of 1007-1032 are never asked for (1155). *)
Definition apply_fil (c : col) (f : fil) : col := mkC (opy c) (per0 c) (per1 c) (fl_op f) (fl_1 f) (fl_2 f).
Definition moved_col (c : col) (n : Z) : res col :=
  do p <- shift (per0 c) n;
  do q <- (match opy c with NOP | BASE => Ok (per1 c) | _ => shift (per1 c) n end);
  Ok (mkC (opy c) p q (opf c) (fnb0 c) (fnb1 c)).
Definition with_files (fs : list fil) (c : col) : list col := if fnb0 c =? 0 then map (apply_fil c) fs else [c].
Definition construct (cls tmp : list col) (fs : option (list fil)) (r : rep) : res (list col) :=
  let fs := match fs with Some l => l | None => [mkF None 0 0] end in
  let r := if r_nb r =? 0 then mkR 1 1 else r in
  do l <- mapM (fun i => mapM (fun c => moved_col c (i * r_incr r)) tmp) (seqZ 0 (Z.to_nat (r_nb r)));
  Ok (cls ++ flat_map (with_files fs) (concat l)).

(** c_cc.cpp:1085-1190 [COL_read_cols]: [tmp], [fs], [r] are the local variables cltmp, fils and rep. Each turn of the
    loop consumes a character or a token that was given back. *)
Fixpoint read_cols (fuel : nat) (e : genv) (cls : list col) (tmp : option (list col)) (fs : option (list fil)) (r : rep)
  (s : gst) : gio (list col) :=
  match fuel with
  | O => Unmodelled
  | S k =>
    try '(t, s1) <- glex s;
    let shifts left :=
      match tmp with
      | None => gfail s1
      | Some l =>
        try '(n, s2) <- read_long_per e s1;
        if n <? 0 then gfail s2
        else try l' <- of_res (shift_cols left n l); read_cols k e cls (Some l') fs r s2
      end in
    let closes := fun (more : bool) =>
      match tmp with
      | None => gfail s1
      | Some l =>
        try cls' <- of_res (construct cls l fs r);
        if more then read_cols k e cls' None None (mkR 0 0) s1 else gret cls' s1
      end in
    match t with
    | LONG _ | BOS | EOS | NOW | BOS1 | EOS1 | NOW1 =>
      match tmp with
      | Some _ => gfail s1
      | None => gbind (read_y e (gunread s1)) (fun l s2 => read_cols k e cls (Some l) fs r s2)
      end
    | OPAR =>
      match tmp with
      | Some _ => gfail s1
      | None => gbind (read_cols k e [] None None (mkR 0 0) s1) (fun l s2 => read_cols k e cls (Some l) fs r s2)
      end
    | COLON =>
      match tmp with
      | None => gfail s1
      | Some _ => if 0 <? r_nb r then gfail s1
                  else gbind (read_rep e s1) (fun r' s2 => read_cols k e cls tmp fs r' s2)
      end
    | OBRACK =>
      match tmp, fs with
      | Some _, None => gbind (read_f (S (length (rest (gy s1)))) [] s1) (fun l s2 => read_cols k e cls tmp (Some l) r s2)
      | _, _ => gfail s1
      end
    | COMMA => closes true
    | CPAR | EOFT => closes false
    | SHIFTL => shifts true
    | SHIFTR => shifts false
    | _ => gfail s1
    end
  end.

(** c_cc.cpp:1223-1234. *)
Definition default_file (c : col) : col :=
  if fnb0 c =? 0 then mkC (opy c) (per0 c) (per1 c) (Some NOP) 1 0 else c.
(** c_cc.cpp:1201-1237 [COL_cc] with the value of YY_COMMENT2 before and after the call. *)
Definition COL_cc (e : genv) (c2 : bool) (t : str) : io (option (list col) * bool) :=
  let y := opened t in
  try '(o, s) <- read_cols (S (S (2 * length (rest y)))) e [] None None (mkR 0 0) (mkG y c2);
  Done (match o with Some l => Some (map default_file l) | None => None end, gc s).
