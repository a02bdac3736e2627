(** What the import of comments gives. *)
From Coq Require Import ZArith Ascii List.
From Verif Require Import M_Base.
Import ListNotations.
Open Scope Z_scope.

(** A line feed becomes a blank. *)
Inductive same_or_blank : ascii -> ascii -> Prop :=
| SB_lf : same_or_blank (chr 10) (chr 32)
| SB_same c : c <> chr 10 -> same_or_blank c c.
(** The text [t], written in a file, is imported as [u]: on one line, without the blanks at the end. *)
Definition imported (t u : list ascii) : Prop :=
  exists k, Forall2 same_or_blank t (u ++ repeat (chr 32) k) /\ (forall a, u <> a ++ [chr 32]).
