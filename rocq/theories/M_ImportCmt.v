(** Import of comments from an ASCII file: the reader (api/io/k_iasc.cpp:88-140) and the loop common to the formats
    (api/io/k_imain.cpp:217-278). Simplifications: as in M_Ascii for the reader and as in M_Import for the rules; the messages and the
    file written at the end are left out; the language is not used by the format ASCII. *)
From Coq Require Import ZArith Ascii String List Bool.
From Verif Require Import M_Base M_Report M_Time M_Names M_Lex M_Double M_Kdb M_Grep M_Ascii M_Import.
Import ListNotations.
Open Scope Z_scope.

(** k_iasc.cpp:112-140 [read_comment]: a name, then a text, both words or strings; [None]: the end of the file or anything else. There
    are no keywords. *)
Definition is_text (l : lexed) : bool := match l with L_TYPE Y_WORD => true | L_TYPE Y_STRING => true | _ => false end.
Definition read_comment (y : yy) : io (option (str * str * yy)) :=
  try '(l, y1) <- lex [] y;
  if is_text l then
    try '(l2, y2) <- lex [] y1;
    if is_text l2 then Done (Some (firstn 79 (text y1), text y2, y2)) else Done None
  else Done None.
(** k_imain.cpp:245-268: the loop ends with the first thing that is not a comment; a name that no rule matches is left out; a name that
    the database refuses raises an exception. *)
Fixpoint import_cmt_loop (fuel : nat) (rs : rules) (db : smap str) (y : yy) : io (smap str) :=
  match fuel with
  | O => Unmodelled
  | S k =>
    try o <- read_comment y;
    match o with
    | None => Done db
    | Some (name, cmt, y2) =>
      try c <- of_res (IMP_change rs name);
      match c with
      | None => import_cmt_loop k rs db y2
      | Some n => match set_in COMMENTS db n (M_Report.strip cmt) with Some db' => import_cmt_loop k rs db' y2 | None => Thrown end
      end
    end
  end.
(** k_imain.cpp:217-278 [IMP_InterpretCmt]. *)
Definition import_cmt (rulefile : option str) (file : str) : io (smap str) :=
  try rs <- of_res (IMP_readrule rulefile);
  import_cmt_loop (fuel_of (opened file)) rs [] (opened file).
