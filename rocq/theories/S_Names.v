(** Specification vocabulary for names. *)
From Coq Require Import ZArith Ascii String List Bool.
From Verif Require Import M_Base M_Names M_Lex.
Import ListNotations.
Open Scope Z_scope.

Definition blank (c : ascii) : Prop := code c = 32 \/ 9 <= code c <= 13.

(** [t] is [s] without its leading and trailing blanks. *)
Definition trimmed (s t : str) : Prop :=
  exists a b, s = a ++ t ++ b /\ Forall blank a /\ Forall blank b /\
    (forall c u, t = c :: u -> ~ blank c) /\ (forall c u, t = u ++ [c] -> ~ blank c).

(** Same letter up to case: equal, or an ASCII letter and its counterpart 32 codes away. *)
Inductive same_letter : ascii -> ascii -> Prop :=
| sl_eq c : same_letter c c
| sl_lu a b : 97 <= code a <= 122 -> code b = code a - 32 -> same_letter a b
| sl_ul a b : 65 <= code a <= 90 -> code b = code a + 32 -> same_letter a b.
Definition same_but_case (s t : str) : Prop := Forall2 same_letter s t.

(** Two names designate the same object in a database of this case mode. *)
Definition designate_same (m : kmode) (a b : str) : Prop :=
  exists a' b', trimmed a a' /\ trimmed b b' /\
    match m with ASIS_CASE => a' = b' | _ => same_but_case a' b' end.

(** Names accepted for an object type, spelled out. *)
Definition letter_of (t : otype) (c : ascii) : Prop :=
  match t with
  | COMMENTS | OBJECTS => 65 <= code c <= 90 \/ 97 <= code c <= 122
  | SCALARS => 97 <= code c <= 122
  | _ => 65 <= code c <= 90
  end.
Definition accepted (t : otype) (n : str) : Prop :=
  exists c r, n = c :: r /\ (length n <= 20)%nat /\ (letter_of t c \/ code c = 95) /\
    Forall (fun x => letter_of t x \/ 48 <= code x <= 57 \/ code x = 95 \/ code x = 35) r.

(** Text that cannot extend a word: empty, or starting with a character that is neither a letter
    (ASCII or OEM accented), nor a digit, nor '_'. *)
Definition word_ends (s : str) : Prop :=
  forall c u, s = c :: u -> is_word_char c = false.
(** First character of a word: a letter or '_'. *)
Definition word_first (c : ascii) : bool := scr_is_alpha c || is_us c.
