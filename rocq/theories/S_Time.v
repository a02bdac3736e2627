(** Specification vocabulary for periods and samples, independent of the code. *)
From Coq Require Import ZArith Ascii String List.
From Verif Require Import M_Base M_Time.
Import ListNotations.
Open Scope Z_scope.

(** The six periodicities and their number of sub-periods in a year. *)
Inductive sub_periods : ascii -> Z -> Prop :=
| sp_Y : sub_periods "Y" 1
| sp_S : sub_periods "S" 2
| sp_Q : sub_periods "Q" 4
| sp_M : sub_periods "M" 12
| sp_W : sub_periods "W" 52
| sp_D : sub_periods "D" 365.

(** A period is valid when its step is one of the sub-periods of the year. *)
Definition valid_period (p : period) : Prop :=
  exists nb, sub_periods (per p) nb /\ 1 <= step p <= nb.

(** [follows p q]: q is the period just after p. *)
Inductive follows : period -> period -> Prop :=
| fol_same_year : forall y s ch nb, sub_periods ch nb -> 1 <= s < nb ->
    follows (mkP y s ch) (mkP y (s + 1) ch)
| fol_next_year : forall y ch nb, sub_periods ch nb ->
    follows (mkP y nb ch) (mkP (y + 1) 1 ch).

(** [steps n p q]: q is reached from p by n single steps forward. *)
Inductive steps : nat -> period -> period -> Prop :=
| st_0 : forall p, steps 0 p p
| st_S : forall n p q r, follows p q -> steps n q r -> steps (S n) p r.

(** [distance n p q]: q is n periods after p (n may be negative). *)
Definition distance (n : Z) (p q : period) : Prop :=
  (0 <= n /\ steps (Z.to_nat n) p q) \/ (n < 0 /\ steps (Z.to_nat (- n)) q p).

(** Period [p] belongs to the interval of periods from [a] to [b]. *)
Definition between (a b p : period) : Prop :=
  exists i j, steps i a p /\ steps j p b.

(** A sample whose ends are valid, in order, and whose recorded number of periods is the real one
    (every sample of at most 32767 periods built by the constructor, see theorem C08). *)
Definition sample_ok (s : sample) : Prop :=
  exists n, Z.of_nat n < 32767 /\ valid_period (s_start s) /\ valid_period (s_end s) /\
            steps n (s_start s) (s_end s) /\ s_nb s = Z.of_nat n + 1.
