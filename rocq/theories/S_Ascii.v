(** Specification vocabulary for ASCII files: which databases and texts are saved without loss. *)
From Coq Require Import ZArith Ascii String List Bool Sorted Floats.SpecFloat.
From Verif Require Import M_Base M_Time M_Names M_Lex M_Double M_Decimal M_Kdb S_Names.
Import ListNotations.
Open Scope Z_scope.

(** A database: distinct names in the order of std::map, accepted for the type. *)
Definition database {V} (ty : otype) (db : list (str * V)) : Prop :=
  StronglySorted (fun a b => str_ltb a b = true) (map fst db) /\ Forall (accepted ty) (map fst db).
(** No name holds the character #. *)
Definition no_sharp {V} (db : list (str * V)) : Prop := forall n, In n (map fst db) -> ~ In (chr 35) n.

(** Texts. No control character other than the line feed; no caret before a letter or an opening bracket;
    fewer than 40000 characters. *)
Definition printable (t : str) : Prop := Forall (fun c => 32 <= code c \/ code c = 10) t.
Definition control_letter (c : ascii) : Prop := 65 <= code c <= 90 \/ 97 <= code c <= 122 \/ code c = 91.
Definition no_control (t : str) : Prop := forall a c b, t = a ++ chr 94 :: c :: b -> ~ control_letter c.
Definition plain (t : str) : Prop := printable t /\ no_control t /\ Z.of_nat (length t) < 40000.
(** Neither quote nor backslash. *)
Definition unquoted (t : str) : Prop := ~ In (chr 34) t /\ ~ In (chr 92) t.
(** A line of at most 60 characters that does not start with a blank. *)
Definition short_line (t : str) : Prop :=
  (length t <= 60)%nat /\ ~ In (chr 10) t /\ (forall c u, t = c :: u -> code c <> 32).
Definition has_lf (t : str) : Prop := In (chr 10) t.

(** The characters that are not blanks, in their order. *)
Definition nonblank (t : str) : str := filter (fun c => negb (isspace c)) t.
(** The maximal runs of characters that satisfy [p]. *)
Fixpoint runs_from (p : ascii -> bool) (cur t : str) : list str :=
  match t with
  | [] => match cur with [] => [] | _ => [rev cur] end
  | c :: t' => if p c then runs_from p (c :: cur) t'
               else match cur with [] => runs_from p [] t' | _ => rev cur :: runs_from p [] t' end
  end.
Definition runs (p : ascii -> bool) (t : str) : list str := runs_from p [] t.
(** The lines of a text. *)
Definition lines : str -> list str := runs (fun c => negb (code c =? 10)).
(** The elements of a list: between blanks, commas and semicolons. *)
Definition in_element (c : ascii) : bool := negb (isspace c || (code c =? 44) || (code c =? 59)).
Definition elements : str -> list str := runs in_element.
(** No arithmetic operator (star, plus, minus, slash) and no closing parenthesis: where SCR_text cuts besides blanks,
    commas and semicolons. *)
Definition in_names (t : str) : Prop := Forall (fun c => ~ In (code c) [42; 43; 45; 47; 41]) t.

(** Numbers. The absolute value of a finite double is numer / denom. *)
Definition numer (x : dbl) : Z := match x with S754_finite _ m e => if 0 <=? e then Z.pos m * 2 ^ e else Z.pos m | _ => 0 end.
Definition denom (x : dbl) : Z := match x with S754_finite _ m e => if 0 <=? e then 1 else 2 ^ (- e) | _ => 1 end.
Definition negative (x : dbl) : bool := match x with S754_finite s _ _ | S754_zero s | S754_infinity s => s | S754_nan => false end.
Definition is_finite (x : dbl) : Prop := match x with S754_finite _ _ _ => True | _ => False end.
(** A double other than 0, of the format binary64, with 1e-306 <= |x| < 1e307; negative numbers are above -1e36. *)
Definition common (x : dbl) : Prop :=
  is_finite x /\ valid_binary prec emax x = true /\ denom x <= numer x * 10 ^ 306 /\ numer x < denom x * 10 ^ 307 /\
  (negative x = true -> numer x < denom x * 10 ^ 36).
(** The double of the decimal number m * 10^k, with at most [p] digits; such a number or its opposite. *)
Definition decimal (p : Z) (x : dbl) : Prop := exists m k, 0 < m < 10 ^ p /\ -306 <= k <= 306 - p /\ x = d_decimal m k.
Definition with_digits (p : Z) (x : dbl) : Prop :=
  x = S754_zero false \/ decimal p x \/ exists y, decimal p y /\ x = SFopp y.
(** Equal to a relative error of 10^(1-p). *)
Definition close (p : Z) (x y : dbl) : Prop :=
  negative x = negative y /\ 10 ^ (p - 1) * Z.abs (numer y * denom x - numer x * denom y) <= numer x * denom y.
(** Saved without loss with [p] digits: not NA, with at most [p] digits. *)
Definition exact (p : Z) (x : dbl) : Prop := d_num x = true /\ with_digits p x.
Definition measured (x : dbl) : Prop := x = S754_zero false \/ common x.
Definition missing (x : dbl) : Prop := d_num x = false.
(** [y] is what is expected after saving [x] with [p] digits: 0 for 0, NA for NA, a close number for a number. *)
Definition as_saved (p : Z) (x y : dbl) : Prop :=
  (x = S754_zero false /\ y = x) \/ (common x /\ close p x y) \/ (missing x /\ y = d_na).
