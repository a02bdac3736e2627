(** Common vocabulary of the models. *)
From Coq Require Import ZArith Ascii String List Bool Lia.
Import ListNotations.
Open Scope Z_scope.

(** Outcome of a C++ call: a value, a C++ exception, or undefined behaviour. *)
Inductive res (A : Type) : Type :=
| Ok (a : A)
| Throw
| UB.
Arguments Ok {A} a.
Arguments Throw {A}.
Arguments UB {A}.

Definition rbind {A B} (r : res A) (f : A -> res B) : res B :=
  match r with Ok a => f a | Throw => Throw | UB => UB end.
Notation "'do' x <- r ; k" := (rbind r (fun x => k))
  (at level 200, x name, r at level 100, k at level 200, right associativity).

(** [std::string] as a list of bytes. *)
Definition str := list ascii.
Definition S2L (s : string) : str := list_ascii_of_string s.
Coercion S2L : string >-> str.

Definition code (c : ascii) : Z := Z.of_N (N_of_ascii c).

(** C library character classes, "C" locale. *)
Definition isdigit (c : ascii) : bool := (48 <=? code c) && (code c <=? 57).
Definition isupper (c : ascii) : bool := (65 <=? code c) && (code c <=? 90).
Definition islower (c : ascii) : bool := (97 <=? code c) && (code c <=? 122).
Definition isalpha (c : ascii) : bool := isupper c || islower c.
Definition isspace (c : ascii) : bool := ((9 <=? code c) && (code c <=? 13)) || (code c =? 32).
Definition chr (z : Z) : ascii := ascii_of_N (Z.to_N z).
Definition toupper (c : ascii) : ascii := if islower c then chr (code c - 32) else c.
Definition tolower (c : ascii) : ascii := if isupper c then chr (code c + 32) else c.

Definition nul : ascii := chr 0.

(** [std::string::operator[]] for an index at most [size()] (index [size()] reads NUL). *)
Definition char_at (s : str) (i : nat) : ascii := nth i s nul.

(** [std::to_string] of an integer. *)
Fixpoint dec_aux (fuel : nat) (n : Z) (acc : str) : str :=
  match fuel with
  | O => acc
  | S f =>
    let acc' := chr (48 + n mod 10) :: acc in
    if n <? 10 then acc' else dec_aux f (n / 10) acc'
  end.
Definition dec_nonneg (n : Z) : str := dec_aux (S (Z.to_nat (Z.log2 n))) n [].
Definition to_string (n : Z) : str :=
  if n <? 0 then chr 45 :: dec_nonneg (- n) else dec_nonneg n.

(** Value of the longest prefix of decimal digits, with the number of digits read. *)
Fixpoint read_digits (s : str) (acc : Z) (cnt : nat) : Z * nat :=
  match s with
  | c :: s' => if isdigit c then read_digits s' (acc * 10 + (code c - 48)) (S cnt) else (acc, cnt)
  | [] => (acc, cnt)
  end.

Fixpoint skip_spaces (s : str) : str :=
  match s with
  | c :: s' => if isspace c then skip_spaces s' else s
  | [] => []
  end.

(** [std::stoi(s)] (base 10): leading blanks, optional sign, digits, the rest is ignored;
    exception if no digit is read or if the value does not fit a 32-bit int. *)
Definition stoi (s : str) : res Z :=
  let s1 := skip_spaces s in
  let '(neg, s2) :=
    match s1 with
    | c :: s' => if code c =? 45 then (true, s') else if code c =? 43 then (false, s') else (false, s1)
    | [] => (false, s1)
    end in
  let '(v, cnt) := read_digits s2 0 O in
  match cnt with
  | O => Throw
  | _ =>
    let v' := if neg : bool then - v else v in
    if (-2147483648 <=? v') && (v' <=? 2147483647) then Ok v' else Throw
  end.
