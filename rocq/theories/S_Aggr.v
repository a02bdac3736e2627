(** Independent vocabulary for the aggregation of variables. *)
From Coq Require Import ZArith Ascii String List Bool.
From Verif Require Import M_Base M_Names M_Lex M_Exec M_Kdb.
Import ListNotations.
Open Scope Z_scope.

(** A pattern as a list of items: a character of the name, any character to be kept, any character to be replaced
    (between square brackets). *)
Inductive item := Same (x : ascii) | Keep | Replace.
Fixpoint items (inside : bool) (p : str) : list item :=
  match p with
  | [] => []
  | x :: p' =>
    if code x =? code "(" then items inside p'
    else if code x =? code ")" then items inside p'
    else if code x =? code "[" then items true p'
    else if code x =? code "]" then items false p'
    else if code x =? code "?" then (if inside then Replace else Keep) :: items inside p'
    else Same x :: items inside p'
  end.
(** [renamed c items name result]: [c] is the replacement character. *)
Inductive renamed (c : ascii) : list item -> str -> str -> Prop :=
| renamed_end : renamed c [] [] []
| renamed_same x l n r : renamed c l n r -> renamed c (Same x :: l) (x :: n) (x :: r)
| renamed_keep x l n r : renamed c l n r -> renamed c (Keep :: l) (x :: n) (x :: r)
| renamed_replace x l n r : x <> c -> renamed c l n r -> renamed c (Replace :: l) (x :: n) (c :: r).
(** Each opening bracket is followed by an item. *)
Definition no_open_end (p : str) : Prop :=
  forall a x b, p = a ++ x :: b -> x = "("%char \/ x = "["%char -> forall i, items i b <> [].
(** Without the spaces and what follows a null character. *)
Definition visible (s r : str) : Prop :=
  exists a b, s = a ++ b /\ Forall (fun x => code x <> 0) a /\ (b = [] \/ exists b', b = zero :: b') /\
    r = filter (fun x => negb (Ascii.eqb x " ")) a.

(** The variable [name] belongs to the group [k]. *)
Definition belongs (c : ascii) (p : str) (name k : str) : Prop :=
  exists r n, renamed c (items false p) name r /\ visible r n /\ k = to_upper (trim n).

(** [x1 op x2 op ... op xn] from left to right. *)
Definition total {V} (op : V -> V -> V) (l : list V) (d : V) : V := match l with [] => d | x :: l' => fold_left op l' x end.
(** The members of the group [k] of the variables [l], in order. *)
Inductive members {V} (c : ascii) (p : str) (k : str) : list (str * V) -> list V -> Prop :=
| members_nil : members c p k [] []
| members_in n v l r : belongs c p n k -> members c p k l r -> members c p k ((n, v) :: l) (v :: r)
| members_out n v l r : ~ belongs c p n k -> members c p k l r -> members c p k ((n, v) :: l) r.
