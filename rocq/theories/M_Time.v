(** Model of [api/time/period.h] and [api/time/sample.h].
    Simplification: C [int]/[long] computations are exact integers (no overflow), except the
    16-bit field [Sample::nb_periods] whose truncation is modelled. *)
From Coq Require Import ZArith Ascii String List Bool.
From Verif Require Import M_Base.
Import ListNotations.
Open Scope Z_scope.

(** period.h:22-54 [get_nb_periods_per_year]. *)
Definition nb_per_year (ch : ascii) : res Z :=
  if code ch =? 0 then Throw else
  let u := code (toupper ch) in
  if u =? 89 (* Y *) then Ok 1
  else if u =? 83 (* S *) then Ok 2
  else if u =? 81 (* Q *) then Ok 4
  else if u =? 77 (* M *) then Ok 12
  else if u =? 87 (* W *) then Ok 52
  else if u =? 68 (* D *) then Ok 365
  else Throw.

(** period.h:79-83. *)
Record period := mkP { year : Z; step : Z; per : ascii }.

(** period.h:86-91, default constructor. *)
Definition period0 : period := mkP 0 0 nul.

(** period.h:93-117 [Period(year, periodicity, step)]; the letter is stored as given. *)
Definition make_period (y : Z) (ch : ascii) (st : Z) : res period :=
  do nb <- nb_per_year ch;
  if (st <? 1) || (nb <? st) then Throw else Ok (mkP y st ch).

(** period.h:126-192 [Period(const std::string&)]. The test [str_period.size() == i] of line 181
    cannot be true (line 149 has thrown on NUL); it is kept. *)
Definition parse_period (s : str) : res period :=
  match s with
  | [] => Throw
  | _ =>
    if negb (isdigit (char_at s 0) && isdigit (char_at s 1) && isdigit (char_at s 2) && isdigit (char_at s 3))
    then Throw
    else
      let ch := toupper (char_at s 4) in
      do max_step <- nb_per_year ch;
      do y0 <- stoi (firstn 4 s);
      let y := if y0 <? 50 then y0 + 2000 else if y0 <? 200 then y0 + 1900 else y0 in
      do st <- (if Nat.eqb (length s) 4 then Ok 1 else stoi (skipn 5 s));
      if max_step <? st then Throw else Ok (mkP y st ch)
  end.

(** period.h:194-207 [Period::difference]: [difference p q] is [p.difference(q)]. *)
Definition difference (p q : period) : res Z :=
  if negb (Ascii.eqb (per p) (per q)) then Throw
  else do nb <- nb_per_year (per p); Ok (nb * (year p - year q) + (step p - step q)).

(** period.h:209-244 [Period::shift]; C division truncates ([Z.quot], [Z.rem]). *)
Definition shift (p : period) (n : Z) : res period :=
  do nb <- nb_per_year (per p);
  if 0 <=? n then
    let sum_steps := step p + n in
    let delta_years := Z.quot (sum_steps - 1) nb in
    Ok (mkP (year p + delta_years) (1 + Z.rem (sum_steps - 1) nb) (per p))
  else
    let shift_steps := step p + n in
    if shift_steps <=? 0 then
      let delta_years := 1 + Z.quot (- shift_steps) nb in
      Ok (mkP (year p - delta_years) (delta_years * nb + shift_steps) (per p))
    else Ok (mkP (year p) shift_steps (per p)).

(** period.h:246-253 [Period::to_string]. *)
Definition period_to_string (p : period) : str :=
  if (year p =? 0) || (code (per p) =? 0) || (step p =? 0) then []
  else to_string (year p) ++ per p :: to_string (step p).

(** period.h:272-275 [operator==]. *)
Definition period_eqb (p q : period) : bool :=
  (year p =? year q) && Ascii.eqb (per p) (per q) && (step p =? step q).

(** sample.h:7-11. *)
Record sample := mkS { s_start : period; s_end : period; s_nb : Z }.

(** Conversion to a 16-bit [short] (implementation defined, two's complement as on all supported platforms). *)
Definition to_short (z : Z) : Z := (z + 32768) mod 65536 - 32768.

(** sample.h:14-28, 43-46 [Sample(start, end)]. *)
Definition make_sample (a b : period) : res sample :=
  do diff <- difference b a;
  if diff <? 0 then Throw else Ok (mkS a b (to_short (diff + 1))).

(** sample.h:48-70 [Sample(text, text)]. *)
Definition parse_sample (a b : str) : res sample :=
  do pa <- parse_period a;
  do pb <- parse_period b;
  make_sample pa pb.

(** sample.h:72-79 [get_period_position]. *)
Definition position (s : sample) (p : period) : res Z :=
  do t <- difference p (s_start s);
  if (t <? 0) || (s_nb s <=? t) then Throw else Ok t.

Fixpoint seqZ (from : Z) (n : nat) : list Z :=
  match n with O => [] | S n' => from :: seqZ (from + 1) n' end.

Fixpoint mapM {A B} (f : A -> res B) (l : list A) : res (list B) :=
  match l with
  | [] => Ok []
  | a :: l' => do b <- f a; do bs <- mapM f l'; Ok (b :: bs)
  end.

(** sample.h:86-94 [get_list_periods]. *)
Definition list_periods (s : sample) : res (list str) :=
  mapM (fun t => do q <- shift (s_start s) t; Ok (period_to_string q)) (seqZ 0 (Z.to_nat (s_nb s))).

(** sample.h:106-125 [intersection]. *)
Definition intersection (s o : sample) : res sample :=
  if negb (Ascii.eqb (per (s_start s)) (per (s_start o))) then Throw else
  do d1 <- difference (s_start s) (s_start o);
  let st := if d1 <? 0 then s_start o else s_start s in
  do d2 <- difference (s_end s) (s_end o);
  let en := if 0 <? d2 then s_end o else s_end s in
  make_sample st en.
