(** What is read in an exported file: a table of cells. *)
From Coq Require Import ZArith Ascii String List Bool Floats.SpecFloat.
From Verif Require Import M_Base M_Lex M_Double M_Decimal S_Names S_Ascii S_Import.
Import ListNotations.
Open Scope Z_scope.

(** A text cut at each separator, from left to right. *)
Fixpoint begins (p s : str) : bool :=
  match p, s with [], _ => true | c :: p', d :: s' => Ascii.eqb c d && begins p' s' | _ :: _, [] => false end.
Fixpoint cut (sep : str) (hold : str) (skip : nat) (t : str) : list str :=
  match t with
  | [] => [rev hold]
  | c :: t' =>
    match skip with
    | S k => cut sep hold k t'
    | O => if begins sep t then rev hold :: cut sep [] (length sep - 1) t' else cut sep (c :: hold) 0 t'
    end
  end.
Definition pieces (sep t : str) : list str := cut sep [] 0 t.
(** Without the blanks and control characters at both ends. *)
Fixpoint drop_blank (t : str) : str := match t with c :: t' => if code c <=? 32 then drop_blank t' else t | [] => [] end.
Definition trim (t : str) : str := rev (drop_blank (rev (drop_blank t))).
(** The lines of a file, each one cut at the separators. *)
Definition cells_of (sep file : str) : list (list str) := map (fun l => map trim (pieces sep l)) (pieces [chr 10] file).

(** The separator: blanks at its end left out. Its first character is not one of a number; it holds no line feed. *)
Definition separator (c : ascii) (s : str) : Prop :=
  32 < code c /\ ~ In c (S2L "0123456789.e+-inf") /\ ~ In (chr 10) s /\ (length (c :: s) <= 10)%nat /\ 32 < code (last s c).
(** A text without the first character of the separator, on one line. *)
Definition clean (c : ascii) (t : str) : Prop := ~ In c t /\ ~ In (chr 10) t.
(** The comment of a variable on one line. *)
Definition one_line (t : str) : str := filter (fun c => negb (code c =? 10)) t.
(** The cell of a value: 8 digits, but for -1.0e37, the least number that is not NA. *)
Definition value_cell (na : str) (x : dbl) : str := if d_num x then if SFleb x (d_ofZ (- d_pow10 37)) then S2L "--" else print_g 8 x else na.

(** The variables that are exported: (old name, new name, values). *)
Inductive selected (rs : list (str * str)) : list (str * list dbl) -> list (str * str * list dbl) -> Prop :=
| Sel_nil : selected rs [] []
| Sel_out n v vars l : no_rule rs n -> selected rs vars l -> selected rs ((n, v) :: vars) l
| Sel_in n m v vars l : new_name rs n m -> selected rs vars l -> selected rs ((n, v) :: vars) ((n, m, v) :: l).

(** A DIF file: pairs of lines, a tuple begins with -1,0 and BOT and ends with the next such line or with -1,0 and EOD. *)
Fixpoint pairs (l : list str) : list (str * str) :=
  match l with a :: b :: l' => (a, b) :: pairs l' | _ => [] end.
Definition unquote (t : str) : str := rev (tl (rev (tl t))).
Definition dif_cell (x : str * str) : str :=
  match fst x with c :: d :: t => if (code c =? 48) && (code d =? 44) then t else unquote (snd x) | _ => unquote (snd x) end.
Fixpoint tuples (l : list (str * str)) : list (list str) :=
  match l with
  | [] => [[]]
  | x :: l' =>
    let r := tuples l' in
    if str_eqb (fst x) (S2L "-1,0") then (if str_eqb (snd x) (S2L "BOT") then [] :: r else [[]])
    else match r with h :: r' => (dif_cell x :: h) :: r' | [] => [] end
  end.
(** The tuples of the data part, after 12 lines of header; the first list is what comes before the first BOT. *)
Definition dif_tuples (file : str) : list (list str) := tl (tuples (pairs (skipn 12 (pieces [chr 10] file)))).
(** The text for missing values: at most 10 characters, without blanks at its ends. *)
Definition missing_text (c : ascii) (na : str) : Prop :=
  clean c na /\ (length na <= 10)%nat /\ 32 < code (hd (chr 32) na) /\ 32 < code (last na (chr 32)).
(** Without the blanks and control characters at the end. *)
Definition trim_end (t : str) : str := rev (drop_blank (rev t)).
