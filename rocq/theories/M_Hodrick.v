(** Hodrick-Prescott filter: api/lec/l_hodrick.cpp, its use in formulas (api/lec/l_exec_mtfn.cpp:661-714) and in the report
    commands WsTrend and WsTrendStd (api/report/undoc/b_trend.cpp).

    Simplifications: a vector is a list of its length; memory is not exhausted. The lines of the matrix that are filled one
    after the other (l_hodrick.cpp:53-67) are different lines, as nb >= 4: the matrix is given element by element. *)
From Coq Require Import ZArith List Bool.
From Verif Require Import M_Base M_Exec M_Matrix.
Import ListNotations.
Open Scope Z_scope.

Section Hodrick.
Context (A : arith).
Notation F := (F A).
Notation "x +. y" := (add A x y) (at level 50, left associativity).
Notation "x *. y" := (mul A x y) (at level 40, left associativity).
Notation "# z" := (ofZ A z) (at level 1).

(** l_hodrick.cpp:32-34: y1, y2, yn; an element that is not written keeps the 0 of M_alloc (s_maallc.c, s_swallc.c:334-353). *)
Definition weight (y : list Z) (lambda : F) (j : nat) : F := match nth_error y j with Some w => lambda *. #w | None => #0 end.
Definition y1 : list Z := [1; -2; 1].
Definition y2 : list Z := [-2; 5; -4; 1].
Definition yn : list Z := [1; -4; 6; -4; 1].
(** l_hodrick.cpp:53-67: before the loop that adds 1 on the diagonal. *)
Definition HP_weights (nb : nat) (lambda : F) (i j : nat) : F :=
  if Nat.eqb i 0 then weight y1 lambda j
  else if Nat.eqb i (nb - 1) then weight y1 lambda (nb - 1 - j)
  else if Nat.eqb i 1 then weight y2 lambda j
  else if Nat.eqb i (nb - 2) then weight y2 lambda (nb - 1 - j)
  else if Nat.leb (i - 2) j then weight yn lambda (j - (i - 2)) else #0.
(** l_hodrick.cpp:68. *)
Definition HP_matrix (nb : nat) (lambda : F) : mat A :=
  build A nb nb (fun i j => if Nat.eqb i j then HP_weights nb lambda i j +. #1 else HP_weights nb lambda i j).
(** l_hodrick.cpp:29-103 [HP_calc]: the code returned and t_vec. The result of M_solve is not looked at: when it finds no solution gt keeps
    the zeros of M_alloc. *)
Definition HP_calc (f : list F) (lambda : F) (std : bool) : Z * list F :=
  let nb := length f in
  let err := (-1, repeat (na A) nb) in
  if Nat.ltb nb 4 then err
  else if negb std && existsb (fun x => le_f A x #0) f then err
  else
    let y := if std then f else map (log A) f in
    let g := match M_solve A nb (HP_matrix nb lambda) y with Some g => g | None => repeat #0 nb end in
    (0, if std then g else map (exp A) g).
(** l_hodrick.cpp:123-133 [HP_test]: beg and dim. *)
Fixpoint leading (p : F -> bool) (l : list F) : nat :=
  match l with x :: l => if p x then S (leading p l) else O | [] => O end.
Definition HP_test (f : list F) : nat * nat :=
  let beg := leading (fun x => negb (num A x)) f in (beg, leading (num A) (skipn beg f)).
(** b_trend.cpp:117-121, for one series: t_vec after HP_test and HP_calc; the code of HP_calc is not looked at. *)
Definition HP_series (f : list F) (lambda : F) (std : bool) : list F :=
  let '(beg, dim) := HP_test f in
  repeat (na A) beg ++ snd (HP_calc (firstn dim (skipn beg f)) lambda std) ++ repeat (na A) (length f - (beg + dim)).
(** l_exec_mtfn.cpp:679-702 [L_hpall], from the test of dim on: None is IODE_NAN. The argument [hp] of M_Exec [calc_hp]. *)
Definition hp_value (std : bool) (lambda : F) (f : list F) (t : Z) : option F :=
  if Nat.ltb (snd (HP_test f)) 5 then None else Some (nth (Z.to_nat t) (HP_series f lambda std) (na A)).
End Hodrick.

(** b_trend.cpp:70-80: [data] are the words after the name of the file: lambda, then the names. The names of the series to be read from
    the file. *)
Definition trend_names {X} (data : list X) : list X := firstn (length data - 1) data.

(** The arithmetic whose filter is the one of this file. *)
Definition with_filter (A : arith) : arith := {|
  F := F A; na := na A; num := num A; num_na := num_na A;
  add := add A; sub := sub A; mul := mul A; dvd := dvd A; neg := neg A;
  lt := lt A; eq := eq A; is_nan := is_nan A;
  ofZ := ofZ A; real := real A; trunc := trunc A;
  half := half A; e8 := e8 A; e15 := e15 A; e30 := e30 A; pi := pi A; euler := euler A; euro := euro A;
  max_exp := max_exp A; min_exp := min_exp A; max_double := max_double A; min_double := min_double A;
  abs := abs A; floor := floor A; log := log A; exp := exp A; sqrt := sqrt A; pow := pow A;
  lib1 := lib1 A; rnd := rnd A; grandom := grandom A;
  hp := hp_value A |}.
