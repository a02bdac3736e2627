(** Names of IODE objects: keys and accepted names. *)
From Coq Require Import ZArith Ascii String List Bool Lia.
From Verif Require Import M_Base.
Import ListNotations.
Open Scope Z_scope.

(** The seven object types, api/constants.h (IodeType) plus OBJECTS used for "any type". *)
Inductive otype := COMMENTS | EQUATIONS | IDENTITIES | LISTS | SCALARS | TABLES | VARIABLES | OBJECTS.

(** api/utils/utils.h:285-295 [trim]: blank set " \t\n\r\f\v" (codes 32, 9-13 = [isspace]). *)
Fixpoint drop_blanks (s : str) : str :=
  match s with
  | c :: s' => if isspace c then drop_blanks s' else s
  | [] => []
  end.
Definition trim (s : str) : str := rev (drop_blanks (rev (drop_blanks s))).

(** api/utils/utils.h:175-189 [to_lower], [to_upper]. *)
Definition to_upper (s : str) : str := map toupper s.
Definition to_lower (s : str) : str := map tolower s.

(** api/objs/kdb.h: [k_mode] of a database (constructor sets it from the object type). *)
Inductive kmode := UPPER_CASE | LOWER_CASE | ASIS_CASE.
Definition mode_of (t : otype) : kmode :=
  match t with
  | COMMENTS | OBJECTS => ASIS_CASE
  | SCALARS => LOWER_CASE
  | _ => UPPER_CASE
  end.

(** api/objs/kdb.h:287-299 [to_key]. *)
Definition to_key (m : kmode) (name : str) : str :=
  let key := trim name in
  match m with
  | UPPER_CASE => to_upper key
  | LOWER_CASE => to_lower key
  | ASIS_CASE => key
  end.

(** api/utils/utils.h:326-349 [get_regex_name]: "[L_][L0-9_#]{0,19}". *)
Definition re_letter (t : otype) (c : ascii) : bool :=
  match t with
  | COMMENTS | OBJECTS => isalpha c
  | SCALARS => islower c
  | _ => isupper c
  end.
Definition is_us (c : ascii) : bool := code c =? 95.
Definition is_sharp (c : ascii) : bool := code c =? 35.
Definition re_first (t : otype) (c : ascii) : bool := re_letter t c || is_us c.
Definition re_next (t : otype) (c : ascii) : bool :=
  re_letter t c || isdigit c || is_us c || is_sharp c.
Definition K_MAX_NAME : Z := 20.
Definition regex_match_name (t : otype) (s : str) : bool :=
  match s with
  | [] => false
  | c :: s' => re_first t c && forallb (re_next t) s' && (Z.of_nat (length s') <=? K_MAX_NAME - 1)
  end.

(** api/utils/utils.h:351-358 [is_coefficient]. *)
Definition is_coefficient (s : str) : bool :=
  match s with [] => false | _ => regex_match_name SCALARS s end.

(** api/utils/utils.h:360-376 [check_name]. *)
Definition check_name (s : str) (t : otype) : res unit :=
  match s with
  | [] => Throw
  | _ =>
    if K_MAX_NAME <? Z.of_nat (length s) then Throw
    else if regex_match_name t s then Ok tt else Throw
  end.
