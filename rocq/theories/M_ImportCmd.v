(** The report commands that import files: api/report/commands/b_xode.cpp:34-112 [B_FileImportCmt], [B_FileImportVar] and
    api/io/k_imain.cpp:293-418 [IMP_RuleImportCmt], [IMP_RuleImportVar], [IMP_RuleImport].
    Simplifications: the words of the argument are given (M_Lists models how they are found); the readers of the formats and the writing of
    the binary file are parameters (M_Import, M_ImportDif and M_ImportCmt model three readers); the trace and the messages are left out. *)
From Coq Require Import ZArith Ascii String List Bool.
From Verif Require Import M_Base M_Report M_Time M_Names M_SimParms.
Import ListNotations.
Open Scope Z_scope.

(** import.h:24-33. *)
Inductive format := F_ASCII | F_ROT_ASCII | F_DIF | F_BISTEL | F_NIS | F_GEM | F_PRN | F_TXT.
(** import.h:211-221: the readers of variables, in order. *)
Definition formats : list format := [F_ASCII; F_ROT_ASCII; F_DIF; F_BISTEL; F_NIS; F_GEM; F_PRN; F_TXT].
(** import.h:293-303: the formats that have a reader of comments. *)
Definition reads_comments (f : format) : bool := match f with F_ASCII | F_BISTEL | F_PRN | F_TXT => true | _ => false end.
(** b_xode.cpp:49 and 93. *)
Definition format_of (w : str) : format := nth (Z.to_nat (argpos (S2L "ARDDNGPT") (first w))) formats F_ASCII.
(** b_xode.cpp:53: 0 is English, 1 is French, 2 is Dutch. *)
Definition language_of (w : str) : Z := argpos (S2L "EFD") (first w).

Section Commands.
Variables (C V : Type).
(** [IMP_InterpretCmt]: the format, the file of rules, the file, the language. [None] is the null pointer. *)
Variable interpret_cmt : format -> str -> str -> Z -> res (option C).
(** [IMP_InterpretVar]: the format, the file of rules, the file, the sample. *)
Variable interpret_var : format -> str -> str -> sample -> res (option V).
(** [save_binary]: whether the file is written. *)
Variable saves : str -> bool.

(** The return code, and what is written in which file. The result of [save_binary] is not used (k_imain.cpp:315, 378). *)
Definition outcome (X : Type) : Type := Z * option (str * X).
Definition save_result {X} (ode : str) (k : option X) : outcome X :=
  match k with Some k => (0, if saves ode then Some (ode, k) else None) | None => (-1, None) end.
(** k_imain.cpp:293-326. *)
Definition RuleImportCmt (rule ode asc : str) (f : format) (lang : Z) : res (outcome C) :=
  if reads_comments f then do k <- interpret_cmt f (strip rule) (strip asc) lang; Ok (save_result (strip ode) k) else Ok (-1, None).
(** k_imain.cpp:341-386. *)
Definition RuleImportVar (rule ode asc from to : str) (f : format) : res (outcome V) :=
  match strip from, strip to with
  | [], _ => Ok (-1, None)
  | _, [] => Ok (-1, None)
  | a, b =>
    match (do p <- parse_period a; do q <- parse_period b; make_sample p q) with
    | Ok s => do k <- interpret_var f (strip rule) (strip asc) s; Ok (save_result (strip ode) k)
    | Throw => Ok (-1, None)
    | UB => UB
    end
  end.
(** b_xode.cpp:34-66. *)
Definition FileImportCmt (args : list str) : res (outcome C) :=
  match args with
  | format :: rule :: infile :: oufile :: lang :: _ => RuleImportCmt rule oufile infile (format_of format) (language_of lang)
  | _ => Ok (-1, None)
  end.
(** b_xode.cpp:83-112. *)
Definition FileImportVar (args : list str) : res (outcome V) :=
  match args with
  | format :: rule :: infile :: oufile :: from :: to :: _ => RuleImportVar rule oufile infile from to (format_of format)
  | _ => Ok (-1, None)
  end.
End Commands.
