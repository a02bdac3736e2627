(** The documented language of patterns (scr4/s_stgrep.c:13-22, k_grep.cpp:34-41). *)
From Coq Require Import ZArith Ascii String List Bool Lia.
From Verif Require Import M_Base.
Import ListNotations.
Open Scope Z_scope.

Inductive item : Type :=
| Many                    (* '*': any sequence of characters, even empty *)
| One                     (* '?': any character *)
| Word (w : bool)         (* '@': any alphanumerical character; '&': any other one *)
| Edge (w : bool)         (* '|', '!': the same, or nothing at the beginning and end of the text *)
| Lit (c : ascii).        (* any other character, or a character after a backslash *)

(** Reading of a pattern. *)
Fixpoint items (all : ascii) (p : str) : list item :=
  match p with
  | [] => []
  | c :: p' =>
    if code c =? 92 then match p' with [] => [] | d :: p'' => Lit d :: items all p'' end
    else (if code c =? 63 then One
          else if code c =? 64 then Word true
          else if code c =? 38 then Word false
          else if code c =? 124 then Edge true
          else if code c =? 33 then Edge false
          else if Ascii.eqb c all then Many
          else Lit c) :: items all p'
  end.

(** Alphanumerical characters: letters, digits and the underscore. *)
Definition alphanumerical (c : ascii) : Prop :=
  48 <= code c <= 57 \/ 65 <= code c <= 90 \/ 97 <= code c <= 122 \/ code c = 95.
(** Equality of two characters, or up to the case of the 26 letters. *)
Definition alike (ecase : bool) (a b : ascii) : Prop :=
  a = b \/ ecase = false /\
    (65 <= code a <= 90 /\ code b = code a + 32 \/ 65 <= code b <= 90 /\ code a = code b + 32).
Definition is_word (w : bool) (c : ascii) : Prop :=
  if w then alphanumerical c else ~ alphanumerical c.

(** [lang ecase start its s]: the rest [s] of the text belongs to the language of [its]; [start]
    tells that [s] is the whole text. *)
Fixpoint lang (ecase start : bool) (its : list item) (s : str) : Prop :=
  match its with
  | [] => s = []
  | Many :: r => exists u v, s = u ++ v /\ lang ecase (start && match u with [] => true | _ => false end) r v
  | One :: r => exists c v, s = c :: v /\ lang ecase false r v
  | Word w :: r => exists c v, s = c :: v /\ is_word w c /\ lang ecase false r v
  | Edge w :: r =>
      (exists c v, s = c :: v /\ is_word w c /\ lang ecase false r v) \/
      ((start = true \/ s = []) /\ lang ecase start r s)
  | Lit d :: r => exists c v, s = c :: v /\ alike ecase c d /\ lang ecase false r v
  end.

(** A text matches a pattern. *)
Definition matches (ecase : bool) (all : ascii) (p s : str) : Prop := lang ecase true (items all p) s.

(** [all] is not one of the other special characters. *)
Definition ordinary (all : ascii) : Prop := ~ In (code all) [92; 63; 64; 38; 33; 124].

(** Patterns on which the code is right: no sequence of '*', '|' and '!' that starts with '*' ends
    the pattern (except a single '*'), no two adjacent '|' or '!', no '*' followed by a second one
    if a '|' or '!' comes later. *)
Definition is_edge (i : item) : bool := match i with Edge _ => true | _ => false end.
Definition may_be_empty (i : item) : bool := match i with Many | Edge _ => true | _ => false end.
Fixpoint tame (its : list item) : bool :=
  match its with
  | [] => true
  | Many :: r =>
      (match r with [] => true | _ => negb (forallb may_be_empty r) end) &&
      (negb (existsb is_edge r) || match r with Many :: _ => false | _ => true end) && tame r
  | Edge _ :: r => (match r with Edge _ :: _ => false | _ => true end) && tame r
  | _ :: r => tame r
  end.
(** The pattern ends with a backslash that escapes nothing. *)
Fixpoint hanging (p : str) : bool :=
  match p with
  | [] => false
  | c :: p' => if code c =? 92 then match p' with [] => true | _ :: p'' => hanging p'' end else hanging p'
  end.
(** Patterns without '&'. *)
Definition no_ampersand (its : list item) : bool :=
  forallb (fun i => match i with Word false => false | _ => true end) its.

(** Lists of patterns (k_grep.cpp:186-215): the blocks between separators, without the blanks around. *)
Definition block_of (seps : ascii -> bool) (p q : str) : Prop :=
  exists a b, p = a ++ q ++ b /\ Forall (fun c => seps c = false) q /\
    (a = [] \/ exists a' c, a = a' ++ [c] /\ seps c = true) /\
    (b = [] \/ exists c b', b = c :: b' /\ seps c = true).
(** A block holding a wildcard. *)
Definition wildcard (all : ascii) (q : str) : Prop := In all q \/ In (chr 63) q.
(** The pattern list [p] selects the name [n] in a database of type [ty]: one of its blocks is a
    wildcard pattern that [n] matches (whatever the case), or designates [n]. *)
Definition selects (key : str -> str) (p n : str) (seps : ascii -> bool) (trimmed : str -> str -> Prop) : Prop :=
  exists q q', block_of seps p q /\ trimmed q q' /\ q' <> [] /\
    (wildcard (chr 42) q' /\ matches false (chr 42) q' n \/ ~ wildcard (chr 42) q' /\ n = key q').
(** Blocks covered: not beginning with a dollar, an at sign or a double quote (lists, files, quoted texts),
    and tame. *)
Definition plain_block (q : str) : Prop :=
  match q with [] => True | c :: _ => ~ In (code c) [34; 36; 64] end /\
  tame (items (chr 42) q) = true /\ no_ampersand (items (chr 42) q) = true /\ hanging q = false.
(** Separators of a list of names: blank, comma, semicolon, newline, tabulation, carriage return. *)
Definition list_separator (c : ascii) : bool := existsb (fun z => code c =? z) [32; 44; 59; 10; 9; 13].
