(** Vocabulary of the statements on changes of periodicity. *)
From Coq Require Import ZArith Ascii String List Bool Sorted.
From Verif Require Import M_Base M_Time M_Names M_Lex M_Compile M_Bytes M_Exec M_Kdb M_Vars M_Freq S_Time.
Import ListNotations.
Open Scope Z_scope.

(** [q] is the [k]-th of the [m] periods that make up the period [p]. *)
Definition part (m : Z) (p q : period) (k : Z) : Prop :=
  exists np, sub_periods (per p) np /\ sub_periods (per q) (m * np) /\ year q = year p /\
    1 <= k <= m /\ M_Time.step q = (M_Time.step p - 1) * m + k.
(** The sample has all the [m] periods of [p]. *)
Definition covered (m : Z) (s : sample) (p : period) : Prop :=
  valid_period p /\ forall k, 1 <= k <= m -> exists q, part m p q k /\ between (s_start s) (s_end s) q.
(** The sample begins with the first of the [m] periods of a period. *)
Definition begins (m : Z) (s : sample) : Prop := exists p, valid_period p /\ part m p (s_start s) 1.
(** The sample begins with the first period of a year; its years have at most 32767 periods of the periodicity [c]
    (the number of periods of a sample is a short). *)
Definition year_start (s : sample) : Prop := M_Time.step (s_start s) = 1.
Definition fits (c : ascii) (s : sample) : Prop :=
  forall nb, sub_periods c nb -> nb * (year (s_end s) - year (s_start s) + 1) <= 32767.

Section S.
Context (A : arith).
Notation F := (F A). Notation na := (na A). Notation num := (num A).
(** The database has a value for each variable and each period of its sample; the names are in order (std::map). *)
Definition regular (d : vdb A) : Prop :=
  sample_ok (v_smp d) /\ StronglySorted (fun a b => str_ltb a b = true) (keys (v_vars d)) /\
  forall n v, In (n, v) (v_vars d) -> Z.of_nat (length v) = s_nb (v_smp d).
(** The value of a variable on a period. *)
Definition value (d : vdb A) (n : str) (q : period) : option F :=
  match find n (v_vars d), M_Time.position (v_smp d) q with
  | Some v, Ok i => nth_error v (Z.to_nat i)
  | _, _ => None
  end.
Definition in_sample (d : vdb A) (q : period) : Prop := between (s_start (v_smp d)) (s_end (v_smp d)) q.
Definition has (d : vdb A) (n : str) : Prop := In n (keys (v_vars d)).
(** [xs] are the values on the [m] periods of [p]. *)
Definition values_in (m : Z) (d : vdb A) (n : str) (p : period) (xs : list F) : Prop :=
  Z.of_nat (length xs) = m /\ valid_period p /\
  forall k x, nth_error xs k = Some x -> exists q, part m p q (Z.of_nat k + 1) /\ value d n q = Some x.

(** The sum, NA when a value is missing; the three methods. *)
Definition total (l : list F) : F := if forallb num l then fold_left (M_Exec.add A) l (ofZ A 0) else na.
Definition aggregated (m : htol_method) (l : list F) : F :=
  match m with
  | HTOL_LAST => last l na
  | HTOL_SUM => total l
  | HTOL_MEAN => if num (total l) then dvd A (total l) (ofZ A (Z.of_nat (length l))) else total l
  end.
(** A value spread on [m] periods: a flow is divided, a stock is repeated. *)
Definition converted (ty : ltoh_type) (m : Z) (x : F) : F := match ty with LTOH_FLOW => dvd A x (ofZ A m) | LTOH_STOCK => x end.
(** The values on the last two periods are numbers. *)
Definition ends_with_numbers (d : vdb A) (n : str) : Prop := exists p x x', valid_period p /\ follows p (s_end (v_smp d)) /\
  value d n p = Some x /\ num x = true /\ value d n (s_end (v_smp d)) = Some x' /\ num x' = true.
End S.
