(** Vocabulary of the statements on the cubic spline: natural cubic splines, on the rationals. *)
From Coq Require Import ZArith List Bool QArith Qcanon.
From Verif Require Import M_Base M_Time M_Names M_Lex M_Compile M_Bytes M_Exec M_Exact M_Kdb M_Vars M_Freq S_Time S_Freq.
Import ListNotations.
Open Scope Z_scope.

(** A polynomial of degree three, its value and its first and second derivatives. *)
Record cubic := mkCubic { c0 : Qc; c1 : Qc; c2 : Qc; c3 : Qc }.
Definition two : Qc := (1 + 1)%Qc.
Definition three : Qc := (1 + two)%Qc.
Definition eval (c : cubic) (t : Qc) : Qc := (c0 c + c1 c * t + c2 c * t * t + c3 c * t * t * t)%Qc.
Definition slope (c : cubic) (t : Qc) : Qc := (c1 c + two * c2 c * t + three * c3 c * t * t)%Qc.
Definition bend (c : cubic) (t : Qc) : Qc := (two * c2 c + two * three * c3 c * t)%Qc.
(** The pieces [c 0], ..., [c (N - 1)] make up a curve through [y 0], ..., [y N], smooth up to the second derivative,
    straight at both ends. *)
Definition natural_spline (y : Z -> Qc) (N : Z) (c : Z -> cubic) : Prop :=
  (forall i, 0 <= i < N -> eval (c i) 0 = y i /\ eval (c i) 1 = y (i + 1)) /\
  (forall i, 0 <= i < N - 1 -> slope (c i) 1 = slope (c (i + 1)) 0 /\ bend (c i) 1 = bend (c (i + 1)) 0) /\
  (0 < N -> bend (c 0) 0 = 0%Qc /\ bend (c (N - 1)) 1 = 0%Qc).

(** The period that is [i] periods after the first one of the sample. *)
Definition nth_period (d : vdb exactly) (i : Z) (p : period) : Prop := shift (s_start (v_smp d)) i = Ok p /\ in_sample exactly d p.
