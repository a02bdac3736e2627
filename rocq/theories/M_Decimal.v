(** Decimal texts of doubles: printf with "%.Plg" and atof (C library), on the numbers of M_Double.
    Both are the correctly rounded conversions of the C standard ("C" locale: scr4/s_atof.c:47-54 [SCR_atof]
    replaces commas by points, of which there are none). *)
From Coq Require Import ZArith Ascii String List Bool Floats.SpecFloat.
From Verif Require Import M_Base M_Time M_Names M_Lex M_Compile M_Bytes M_Exec M_Double.
Import ListNotations.
Open Scope Z_scope.

(** * printf *)

(** n / d rounded to the nearest integer, ties to even. *)
Definition round_div (n d : Z) : Z :=
  let q := n / d in
  match Z.compare (2 * (n mod d)) d with Lt => q | Gt => q + 1 | Eq => if Z.even q then q else q + 1 end.
(** n / d * 10^k as a fraction. *)
Definition scale (n d k : Z) : Z * Z := if 0 <=? k then (n * 10 ^ k, d) else (n, d * 10 ^ (- k)).
(** The decimal exponent of n / d: the [x] with 10^x <= n / d < 10^(x+1). *)
Fixpoint exp_up (fuel : nat) (n d x : Z) : Z :=
  match fuel with O => x | S k => if n <? d then x - 1 else exp_up k n (10 * d) (x + 1) end.
Fixpoint exp_down (fuel : nat) (n d x : Z) : Z :=
  match fuel with O => x | S k => if d <=? n then x else exp_down k (10 * n) d (x - 1) end.
Definition exp10 (n d : Z) : Z := if d <=? n then exp_up 400 n d 0 else exp_down 400 n d 0.
(** [p] significant digits of n / d and the exponent of the first one. *)
Definition digits_of (p n d : Z) : Z * Z :=
  let x := exp10 n d in
  let '(a, b) := scale n d (p - 1 - x) in
  let r := round_div a b in
  if r =? 10 ^ p then (10 ^ (p - 1), x + 1) else (r, x).
(** Without the zeros at the end. *)
Fixpoint drop_zeros (s : str) : str := match s with c :: s' => if code c =? 48 then drop_zeros s' else s | [] => [] end.
Definition strip (s : str) : str := rev (drop_zeros (rev s)).
Definition zeros (n : Z) : str := repeat (chr 48) (Z.to_nat n).
Definition point (i f : str) : str := match strip f with [] => i | f' => i ++ chr 46 :: f' end.
Definition exp_text (x : Z) : str :=
  let a := Z.abs x in
  chr 101 :: (if x <? 0 then chr 45 else chr 43) :: (if a <? 10 then chr 48 :: to_string a else to_string a).
(** C99 7.19.6.1 conversion g. *)
Definition g_text (p n d : Z) : str :=
  let '(r, x) := digits_of p n d in
  let ds := to_string r in
  if (-4 <=? x) && (x <? p) then
    if 0 <=? x then point (firstn (Z.to_nat (x + 1)) ds) (skipn (Z.to_nat (x + 1)) ds)
    else point [chr 48] (zeros (- x - 1) ++ ds)
  else point (firstn 1 ds) (skipn 1 ds) ++ exp_text x.
Definition sign (s : bool) (t : str) : str := if s then chr 45 :: t else t.
Definition print_g (p : Z) (x : dbl) : str :=
  match x with
  | S754_nan => S2L "nan"
  | S754_infinity s => sign s (S2L "inf")
  | S754_zero s => sign s (S2L "0")
  | S754_finite s m e =>
    sign s (if 0 <=? e then g_text p (Z.pos m * 2 ^ e) 1 else g_text p (Z.pos m) (2 ^ (- e)))
  end.

(** * atof *)

(** m * 10^k rounded to the nearest double. *)
Definition d_decimal (m k : Z) : dbl :=
  match m with
  | Z.pos p =>
    if 400 <? k then S754_infinity false
    else if k <? - (400 + Z.log2 m) then S754_zero false
    else if 0 <=? k then d_ofZ (m * 10 ^ k)
    else SFdiv prec emax (S754_finite false p 0) (S754_finite false (Z.to_pos (10 ^ (- k))) 0)
  | _ => S754_zero false
  end.
(** The exponent: e or E, a sign, digits; 0 when it is not complete. *)
Definition scan_exp (s : str) : Z :=
  match s with
  | c :: s' =>
    if (code c =? 101) || (code c =? 69) then
      match s' with
      | g :: s'' => if code g =? 45 then - fst (read_digits s'' 0 O)
                    else if code g =? 43 then fst (read_digits s'' 0 O) else fst (read_digits s' 0 O)
      | [] => 0
      end
    else 0
  | [] => 0
  end.
(** atof on a text without sign. *)
Definition scan (s : str) : dbl :=
  let '(i, r) := span isdigit s in
  match r with
  | c :: r' =>
    if code c =? 46 then
      let '(f, r'') := span isdigit r' in
      d_decimal (fst (read_digits (i ++ f) 0 O)) (scan_exp r'' - Z.of_nat (length f))
    else d_decimal (fst (read_digits i 0 O)) (scan_exp r)
  | [] => d_decimal (fst (read_digits i 0 O)) 0
  end.
