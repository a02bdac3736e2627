(** The formats of the import commands, as documented in doc/source/reports_commands.rst (FileImportVar, FileImportCmt). *)
From Coq Require Import ZArith Ascii String List.
From Verif Require Import M_Base M_ImportCmd.
Import ListNotations.

Inductive documented : string -> format -> Prop :=
| D_ascii : documented "Ascii" F_ASCII
| D_rot : documented "Rotated_Ascii" F_ROT_ASCII
| D_dif : documented "DIF" F_DIF
| D_nis : documented "NIS" F_NIS
| D_gem : documented "GEM" F_GEM
| D_prn : documented "PRN" F_PRN
| D_txt : documented "TXT_Belgostat" F_TXT.
(** The two cases of the letters that stand for a format. *)
Inductive letter : ascii -> format -> Prop :=
| LA c : In c (list_ascii_of_string "Aa") -> letter c F_ASCII
| LR c : In c (list_ascii_of_string "Rr") -> letter c F_ROT_ASCII
| LD c : In c (list_ascii_of_string "Dd") -> letter c F_DIF
| LN c : In c (list_ascii_of_string "Nn") -> letter c F_NIS
| LG c : In c (list_ascii_of_string "Gg") -> letter c F_GEM
| LP c : In c (list_ascii_of_string "Pp") -> letter c F_PRN
| LT c : In c (list_ascii_of_string "Tt") -> letter c F_TXT.
(** A word of one printed block, as the arguments of a command. *)
Definition no_blank_end (t : list ascii) : Prop := t <> [] /\ Forall (fun c => (32 < code c)%Z) t.
