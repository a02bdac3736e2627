(** Specification: the elements of a list, of the lists it refers to, and what the operations on lists mean. *)
From Coq Require Import ZArith Ascii String List Bool Lia Sorting.Permutation Sorting.Sorted.
From Verif Require Import M_Base M_Names M_Lex M_Kdb M_Report S_Report M_Lists.
Import ListNotations.
Open Scope Z_scope.

(** The parts of a text between blanks, commas, semicolons, tabs and ends of line. *)
Definition sep (c : ascii) : bool := among c [32; 44; 59; 10; 9; 13].
Definition items (t : str) : list str := tokens sep t [].
(** A word without separators and quotes, of at most 128 characters. *)
Definition word (w : str) : bool := nonempty w && forallb (fun c => negb (sep c)) w && without [34] w && Nat.leb (length w) 128.
(** An element of a list: such a word, which is not a reference to a list or to a file. *)
Definition element (w : str) : bool := word w && first_not [64; 36] w.
(** [flat ws n l r]: the items [l] stand for the elements [r] when every reference $x is replaced by the items of the list x,
    up to [n] levels. *)
Inductive flat (ws : lists) : nat -> list str -> list str -> Prop :=
| flat_nil n : flat ws n [] []
| flat_element n w l r : element w = true -> flat ws n l r -> flat ws n (w :: l) (w :: r)
| flat_list n x t a l r : word (chr 36 :: x) = true -> list_of ws x = Some t -> without [34] t = true ->
    flat ws n (items t) a -> flat ws (S n) l r -> flat ws (S n) ((chr 36 :: x) :: l) (a ++ r).
(** The elements of a text: at most 10 levels of lists. *)
Definition stands_for (ws : lists) (t : str) (l : list str) : Prop := without [34] t = true /\ flat ws 10 (items t) l.
(** The elements of a list of the workspace. *)
Definition list_holds (ws : lists) (name : str) (l : list str) : Prop := exists t, list_of ws name = Some t /\ stands_for ws t l.

(** The name of a list: a letter or an underscore, then letters, digits, underscores, 20 characters at most. *)
Definition list_name (n : str) : Prop := regex_match_name LISTS (to_upper n) = true.
Definition same_name (a b : str) : Prop := to_key UPPER_CASE a = to_key UPPER_CASE b.

(** All the concatenations, in the order of the first list, then of the second. *)
Definition product (a b : list str) : list str := flat_map (fun x => map (fun y => x ++ y) b) a.
(** Order of [strcmp]. *)
Definition not_after (a b : str) : Prop := str_ltb b a = false.
(** The words of a list without repetitions, in the order of their first places. *)
Fixpoint firsts (l : list str) : list str :=
  match l with
  | [] => []
  | w :: l' => w :: filter (fun x => negb (str_eqb x w)) (firsts l')
  end.
Definition within (l : list str) (w : str) : bool := existsb (str_eqb w) l.
(** [ws0] holds lists of [ws], none of them with the name [name]. *)
Definition other_lists (ws0 ws : lists) (name : str) : Prop :=
  forall x t, list_of ws0 x = Some t -> ~ same_name x name /\ list_of ws x = Some t.
(** The sublists of a list made in parts are [name]0, [name]1, ...: their names have 18 characters at most. *)
Definition room_for_numbers (name : str) (l : list str) : Prop :=
  forall j, 0 <= j < Z.of_nat (length l) -> (length (name ++ to_string j) <= 18)%nat.

(** A word that can be put in quotes: no quote inside, at most 127 characters, not the name of a file or a list to expand. *)
Definition quotable (w : str) : bool := nonempty w && without [34] w && Nat.leb (length w) 127 && first_not [64; 36] w.
(** The word in quotes, and a blank. *)
Definition quoted (w : str) : str := chr 34 :: w ++ [chr 34; BLANK].
