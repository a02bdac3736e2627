(** What a cell of a table shows on a column of a generalised sample, written down from the manual. *)
From Coq Require Import ZArith Ascii String List Bool.
From Verif Require Import M_Base M_Time M_Names M_Lex M_Compile M_Bytes M_Exec M_Ascii M_Gsample M_Calc S_Time S_Gsample.
Import ListNotations.
Open Scope Z_scope.

Section Calc.
Context (A : arith) (real_bytes : str -> list Z).
Notation F := (F A). Notation num := (num A).
Notation "x +. y" := (add A x y) (at level 50, left associativity).
Notation "x -. y" := (sub A x y) (at level 50, left associativity).
Notation "x *. y" := (mul A x y) (at level 40, left associativity).
Notation "x /. y" := (dvd A x y) (at level 40, left associativity).
Notation "x =. y" := (eq A x y) (at level 70).
Notation "# z" := (ofZ A z) (at level 1).

(** The place of a period in the sample of a file: 0 is its first period. *)
Definition place (start p : period) : Z := (year p - year start) * subs (per p) + (step p - step start).
(** The value of a formula in a period of a file, when there is one. *)
Definition of_formula (E : env A) (text : str) (p : period) : option F :=
  match evaluate A E real_bytes text (place (s_start (smp E)) p) with Ok v => if num v then Some v else None | _ => None end.
(** A cell is a formula and perhaps a divisor: their quotient. *)
Definition worth (E : env A) (text : str) (div : option str) (p : period) : option F :=
  match of_formula E text p, div with
  | Some v, None => Some (v /. #1)
  | Some v, Some d => match of_formula E d p with Some dv => if dv =. #0 then None else Some (v /. dv) | None => None end
  | None, _ => None
  end.

(** The periods from the earlier one to the later one, their number less one, their sum. *)
Definition before (p q : period) : bool := place p q <? 0.
Definition distance (p q : period) : Z := Z.abs (place p q).
Definition between (p q : period) : list period := map (further (if before p q then q else p)) (seqZ 0 (Z.to_nat (distance p q + 1))).
Fixpoint sum_of (w : period -> option F) (l : list period) (acc : F) : option F :=
  match l with [] => Some acc | p :: l => match w p with Some v => sum_of w l (acc +. v) | None => None end end.
Definition quotient (a b : option F) : option F :=
  match a, b with Some a, Some b => if b =. #0 then None else Some (a /. b) | _, _ => None end.
Definition lift (k : F -> F -> F) (a b : option F) : option F := match a, b with Some a, Some b => Some (k a b) | _, _ => None end.
(** The average growth by period, in percent, of a ratio; the sign is that of the ratio. *)
Definition growth (n : Z) (m : F) : F :=
  let up m := pow A m (#1 /. #n) -. #1 in
  if lt A m #0 then #(-1) *. #100 *. up (neg A m) else #1 *. #100 *. up m.
(** An operation on two periods, on one file: [w] gives the value of the cell in a period. *)
Definition on_two (w : period -> option F) (o : gop) (p q : period) : option F :=
  let n := distance p q in
  match o with
  | NOP => w p
  | DIFF => lift (fun a b => a -. b) (w p) (w q)
  | MDIFF => lift (fun a b => if n =? 0 then #0 else (a -. b) /. #n) (w p) (w q)
  | BASE => option_map (fun m => #100 *. m) (quotient (w p) (w q))
  | GRT => option_map (fun m => #100 *. (m -. #1)) (quotient (w p) (w q))
  | MGRT => if n =? 0 then lift (fun _ _ => #0) (w p) (w q) else option_map (growth n) (quotient (w p) (w q))
  | ADD => sum_of w (between p q) #0
  | MEAN => option_map (fun s => s /. #(n + 1)) (sum_of w (between p q) #0)
  end.
(** A column: [w f p] is the value of the cell on file [f] in period [p]. *)
Definition col_value (w : Z -> period -> option F) (c : vcol) : option F :=
  let on f := on_two (w f) (v_op c) (v_0 c) (match v_1 c with Some q => q | None => v_0 c end) in
  match v_files c with
  | None => None
  | Some (o, f, g) =>
    match o with
    | NOP => on f
    | DIFF => lift (fun a b => a -. b) (on f) (on g)
    | ADD => lift (fun a b => a +. b) (on f) (on g)
    | MEAN => lift (fun a b => half A *. (a +. b)) (on f) (on g)
    | GRT => option_map (fun m => #100 *. (m -. #1)) (quotient (on f) (on g))
    | BASE => option_map (fun m => #100 *. m) (quotient (on f) (on g))
    | _ => None
    end
  end.

(** * The statements are about *)

(** A formula and its compiled form. *)
Definition compiled (text : str) (x : clec) : Prop :=
  exists atoms code, fst (compile_text text []) = C_ok atoms /\ encode real_bytes (names_of atoms) atoms = Ok code
  /\ x = mkX (names_of atoms) code.
(** The formula can be calculated in every period of the file (its value may be not available). *)
Definition calculable (E : env A) (text : str) : Prop := forall t, exists v, evaluate A E real_bytes text t = Ok v.
Definition div_ok (P : str -> clec -> Prop) (div : option str) (d : option clec) : Prop :=
  match div, d with Some t, Some x => P t x | None, None => True | _, _ => False end.
(** The files of a column: there, with the periodicity of the column, and the formulas can be calculated. *)
Definition file_of (files : list (option (env A))) (f : Z) : option (env A) :=
  if (1 <=? f) && (f <=? 5) then nth (Z.to_nat (f - 1)) files None else None.
Definition serves (files : list (option (env A))) (p : period) (text : str) (div : option str) (f : Z) : Prop :=
  exists E, file_of files f = Some E /\ per (s_start (smp E)) = per p
  /\ calculable E text /\ match div with Some d => calculable E d | None => True end.
Definition proper (c : vcol) : Prop :=
  valid_period (v_0 c) /\ match v_1 c with Some q => valid_period q /\ per q = per (v_0 c) | None => v_op c = NOP end.
Definition served (files : list (option (env A))) (text : str) (div : option str) (c : vcol) : Prop :=
  match v_files c with
  | Some (NOP, f, g) => serves files (v_0 c) text div f /\ g = 0
  | Some ((ADD | DIFF | GRT | MEAN | BASE), f, g) => serves files (v_0 c) text div f /\ serves files (v_0 c) text div g
  | _ => False
  end.
(** The value of a cell on a file, in a period. *)
Definition cell_on (files : list (option (env A))) (text : str) (div : option str) (f : Z) (p : period) : option F :=
  match file_of files f with Some E => worth E text div p | None => None end.
Definition shown (na : F) (o : option F) : F := match o with Some v => v | None => na end.
End Calc.
