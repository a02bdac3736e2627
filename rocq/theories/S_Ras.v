(** Matrices adjusted to given sums of the rows and of the columns. *)
From Coq Require Import ZArith List Bool Reals.
From Verif Require Import M_Base M_Lex M_Kdb M_Exec M_Real M_Matrix S_Hodrick.
Import ListNotations.
Open Scope R_scope.

Definition el_at (a : mat reals) (i j : nat) : R := get a i j.
Definition row_sum (m : nat) (a : mat reals) (i : nat) : R := sum_to m (fun j => el_at a i j).
Definition col_sum (n : nat) (a : mat reals) (j : nat) : R := sum_to n (fun i => el_at a i j).
(** [b] is [a] with its rows multiplied by [r] and its columns by [c]. *)
Definition scaled (n m : nat) (a b : mat reals) (r c : nat -> R) : Prop :=
  forall i j, (i < n)%nat -> (j < m)%nat -> el_at b i j = r i * el_at a i j * c j.
Definition not_negative (n m : nat) (a : mat reals) : Prop := forall i j, (i < n)%nat -> (j < m)%nat -> 0 <= el_at a i j.

(** The value of a variable; NA if there is none. *)
Definition value (ws : list (str * list R)) (name : str) (t : Z) : R :=
  match find name ws with Some l => nth (Z.to_nat t) l r_na | None => r_na end.
Definition known (x : R) : bool := r_num x.
(** Not one of the numbers that the command takes for 0. *)
Definition clear (x : R) : Prop := x = 0 \/ / 10 ^ 10 <= Rabs x.
(** The sum of the values that are known. *)
Definition known_sum (n : nat) (f : nat -> R) : R := sum_to n (fun k => if known (f k) then f k else 0).
