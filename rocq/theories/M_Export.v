(** Export of variables to text files: api/io/k_emain.cpp (the loops, EXP_RuleExport), api/io/k_ecsv.cpp (CSV and rotated CSV),
    api/io/k_edif.cpp (DIF).
    Simplifications: files are texts, opened without failure; texts are those of the OEM code page and hold no NUL; the rules are given
    as the list read by IMP_readrule (M_Import); messages, the trace of the renaming, the loading of the two files and the restriction
    of the sample (k_emain.cpp:388-397) are left out; a variable is read with [nth_error]: outside of it the access is undefined. *)
From Coq Require Import ZArith Ascii String List Bool Floats.SpecFloat.
From Verif Require Import M_Base M_Report M_Time M_Names M_Lex M_Compile M_Bytes M_Exec M_Double M_Decimal M_Kdb M_Grep M_Ascii M_Import.
Import ListNotations.
Open Scope Z_scope.

(** k_emain.cpp:115-126 [EXP_set]: at most 10 characters (s_stlcpy.c:25-38), without the blanks at the end. *)
Definition effective (other t : str) : str := match M_Report.strip (firstn 10 t) with [] => other | s => s end.
Definition EXP_SEP (sep : str) : str := effective [SP] sep.
Definition EXP_NA (na : str) : str := effective (S2L "#N/A") na.
(** k_emain.cpp:137-145 [write_value] with s_stfmtd.c:44-93 (size 20, free format): the conversion g with 8 digits, then no blanks.
    The text has never more than 20 characters; -1.0e37 is written as two dashes. *)
Definition lowest : dbl := d_ofZ (- d_pow10 37).
Definition write_value (na : str) (x : dbl) : str :=
  let t := print_g 8 x in if d_num x then if SFleb x lowest then S2L "--" else sqz (repeat SP (20 - length t) ++ t) else na.
(** k_emain.cpp:157-177 [write_pre_post], 188-191 [write_separator]. *)
Definition write_pre_post (pre post t : str) : str := pre ++ M_Report.strip t ++ post.
Definition write_separator (sep t : str) : str := write_pre_post [] sep t.
(** k_ecsv.cpp:107-121, k_edif.cpp:95-107: the text of the comment, empty when there is none. *)
Definition comment_text (cmts : smap str) (name : str) : str := match M_Kdb.find name cmts with Some t => t | None => [] end.
Definition without_lf (t : str) : str := filter (fun c => negb (code c =? 10)) t.

(** The values of a variable from the first period on. *)
Definition value_at (na : str) (v : list dbl) (t : nat) : res str :=
  match nth_error v t with Some x => Ok (write_value na x) | None => UB end.
Definition positions (s : sample) : list nat := seq 0 (Z.to_nat (s_nb s)).
(** The variables with their new names, in the order of the database: k_emain.cpp:227-229, 281-283. *)
Definition renamed_vars (rs : rules) (vars : smap (list dbl)) : res (list (str * str * list dbl)) :=
  do l <- mapM (fun x => do o <- IMP_change rs (fst x); Ok (match o with Some m => [(fst x, m, snd x)] | None => [] end)) vars;
  Ok (concat l).

(** * CSV: k_emain.cpp:211-255, k_ecsv.cpp:51-73, 98-165 *)
Definition csv_row (na sep : str) (cmts : smap str) (s : sample) (x : str * str * list dbl) : res str :=
  let '(n, m, v) := x in
  do vs <- mapM (value_at na v) (positions s);
  Ok (write_separator sep m ++ SP :: write_separator sep (without_lf (comment_text cmts n)) ++ SP ::
      flat_map (write_separator sep) vs ++ [LF]).
Definition export_csv (rs : rules) (na sep : str) (s : option sample) (vars : smap (list dbl)) (cmts : smap str) : res str :=
  match s with
  | None => UB
  | Some s =>
    let sep := EXP_SEP sep in
    do ps <- list_periods s;
    do l <- renamed_vars rs vars;
    do rows <- mapM (csv_row (EXP_NA na) sep cmts s) l;
    Ok (S2L "code" ++ sep ++ S2L "comment" ++ sep ++ flat_map (fun p => p ++ sep) ps ++ LF :: concat rows)
  end.

(** * Rotated CSV: k_emain.cpp:262-325, k_ecsv.cpp:172-221 *)
Definition rotated_row (na sep : str) (l : list (str * str * list dbl)) (t : nat * str) : res str :=
  do vs <- mapM (fun x => value_at na (snd x) (fst t)) l;
  Ok (snd t ++ sep ++ SP :: flat_map (fun v => write_separator sep v ++ [SP]) vs ++ [LF]).
Definition export_rotated (rs : rules) (na sep : str) (s : option sample) (vars : smap (list dbl)) : res str :=
  match s with
  | None => UB
  | Some s =>
    let sep := EXP_SEP sep in
    do l <- renamed_vars rs vars;
    do ps <- list_periods s;
    do rows <- mapM (rotated_row (EXP_NA na) sep l) (combine (positions s) ps);
    Ok (sep ++ SP :: flat_map (fun x => write_separator sep (snd (fst x)) ++ [SP]) l ++ LF :: concat rows)
  end.

(** * DIF: k_edif.cpp:69-133. [n] lines; a null pointer is written when there is no period (k_emain.cpp:236-239, k_edif.cpp:131). *)
Definition dif_lines (l : list str) : str := flat_map (fun t => t ++ [LF]) l.
Definition quote (t : str) : str := QUOTE :: t ++ [QUOTE].
Definition dif_row (na : str) (cmts : smap str) (s : sample) (x : str * str * list dbl) : res str :=
  let '(n, m, v) := x in
  do vs <- mapM (value_at na v) (positions s);
  match vs with
  | [] => UB
  | _ =>
    Ok (write_pre_post (S2L "-1,0" ++ LF :: S2L "BOT" ++ LF :: S2L "1,0" ++ LF :: [QUOTE]) [QUOTE; LF] m ++
        write_pre_post (S2L "1,0" ++ LF :: [QUOTE]) [QUOTE; LF] (comment_text cmts n) ++
        flat_map (write_pre_post (S2L "0,") (LF :: S2L "V" ++ [LF])) vs)
  end.
Definition export_dif (rs : rules) (na : str) (s : option sample) (vars : smap (list dbl)) (cmts : smap str) : res str :=
  match s with
  | None => UB
  | Some s =>
    do ps <- list_periods s;
    do l <- renamed_vars rs vars;
    do rows <- mapM (dif_row (EXP_NA na) cmts s) l;
    Ok (dif_lines ([S2L "TABLE"; S2L "0,1"; quote []; S2L "VECTORS"; S2L "0," ++ to_string (s_nb s + 2); quote []; S2L "TUPLES";
                    S2L "0," ++ to_string (Z.of_nat (length vars) + 1); quote []; S2L "DATA"; S2L "0,0"; quote []; S2L "-1,0"; S2L "BOT";
                    S2L "1,0"; quote (S2L "CODE"); S2L "1,0"; quote (S2L "COMMENT")] ++ flat_map (fun p => [S2L "1,0"; quote p]) ps) ++
        concat rows ++ dif_lines [S2L "-1,0"; S2L "EOD"])
  end.

(** k_emain.cpp:344-413 [EXP_RuleExport], formats 0, 1, 4 (the two others are Unmodelled): the file that is written, None for -1.
    [vfile]: what the file of variables holds, None when no name is given: the database is then a new one, without sample. *)
Definition EXP_RuleExport (rulefile : option str) (vfile : option vdb) (cfile : option (smap str)) (na sep : str) (fmt : Z) : io (option str) :=
  if (fmt <? 0) || (5 <=? fmt) then Done None
  else if (fmt =? 2) || (fmt =? 3) then Unmodelled
  else
    let db := match vfile with Some d => d | None => no_vars end in
    let cmts := match cfile with Some c => c | None => [] end in
    of_res (do rs <- IMP_readrule rulefile;
            do f <- (if fmt =? 0 then export_csv rs na sep (vsample db) (vvars db) cmts
                     else if fmt =? 1 then export_dif rs na (vsample db) (vvars db) cmts
                     else export_rotated rs na sep (vsample db) (vvars db));
            Ok (Some f)).
