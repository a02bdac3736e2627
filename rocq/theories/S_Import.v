(** Specification of the rules of an import (k_rules.cpp:20-37): what a rule does with a name. *)
From Coq Require Import ZArith Ascii String List Bool.
From Verif Require Import M_Base M_Names M_Lex M_Kdb S_Names S_Grep.
Import ListNotations.
Open Scope Z_scope.

(** A plus copies a character of the name, a minus skips one; the work ends when there is none left. Any other character is put in the
    result. *)
Inductive renamed : str -> str -> str -> Prop :=
| R_end s : renamed [] s []
| R_stop c r : c = chr 43 \/ c = chr 45 -> renamed (c :: r) [] []
| R_copy r x s o : renamed r s o -> renamed (chr 43 :: r) (x :: s) (x :: o)
| R_skip r x s o : renamed r s o -> renamed (chr 45 :: r) (x :: s) o
| R_put c r s o : c <> chr 43 -> c <> chr 45 -> renamed r s o -> renamed (c :: r) s (c :: o).
(** The new name of [name]: the first rule whose pattern it matches (letter case is ignored), at most 20 characters. *)
Definition new_name (rs : list (str * str)) (name new : str) : Prop :=
  exists a p r b o, rs = a ++ (p, r) :: b /\ Forall (fun x => ~ matches false (chr 42) (fst x) name) a /\ matches false (chr 42) p name /\
    renamed r name o /\ new = firstn 20 o.
Definition no_rule (rs : list (str * str)) (name : str) : Prop := Forall (fun x => ~ matches false (chr 42) (fst x) name) rs.
(** Patterns on which the search is right (C24), and never undefined. *)
Definition sane (rs : list (str * str)) : Prop :=
  Forall (fun x => tame (items (chr 42) (fst x)) = true /\ hanging (fst x) = false /\ no_ampersand (items (chr 42) (fst x)) = true) rs.
(** A line of a file of rules: a pattern, a blank or more, a transcoding. *)
Definition word (w : str) : Prop := w <> [] /\ Forall (fun c => isspace c = false) w.
Definition rule_line (x : str * str) : str := fst x ++ [chr 32] ++ snd x ++ [chr 10].
Definition writable_rule (x : str * str) : Prop := word (fst x) /\ word (snd x) /\ (length (fst x) + length (snd x) <= 250)%nat.
(** The last value given for a name in a list. *)
Fixpoint last_for {V} (k : str) (l : list (option str * V)) : option V :=
  match l with
  | [] => None
  | (o, v) :: l' => match last_for k l' with Some w => Some w | None => match o with Some n => if str_eqb n k then Some v else None | None => None end end
  end.
