(** Equations saved in and loaded from ASCII files: api/ascii/k_cceqs.cpp, api/utils/yy.cpp.

    As in M_Ascii; besides, all texts are ASCII (k_cceqs.cpp and equations.h:358-362 convert the comment between code pages once
    more when it is saved than when it is loaded).  [compiles name lec]: the construction of CLEC succeeds. *)
From Coq Require Import ZArith Ascii String List Bool Floats.SpecFloat.
From Verif Require Import M_Base M_Time M_Names M_Lex M_Compile M_Bytes M_Exec M_Double M_Decimal M_Kdb M_Ascii.
Import ListNotations.
Open Scope Z_scope.

(** A double converted to float and back. *)
Definition to_float (x : dbl) : dbl :=
  match x with
  | S754_finite s m e =>
    match binary_round 24 128 s m e with S754_finite s' m' e' => binary_round prec emax s' m' e' | y => y end
  | _ => x
  end.
(** equations.h:118-131; the tests are floats. [tests]: the 20 values of equations.h:131. *)
Record equation := mkEq {
  lec : str; method : Z; sampl : option sample; comment : str; block : str; instr : str; date : Z; tests : list dbl }.
(** k_cceqs.cpp:24-48 [KE_TABLE]. *)
Definition KE_TABLE : list str :=
  map S2L ["{"; "}"; "BLOCK"; "COMMENT"; "DATE"; "INF"; "INSTRUMENTS"; "GLS"; "LSQ"; "SAMPLE"; "ZELLNER"; "MAXLIK"; "STDEV"; "MEANY"; "SSRES";
    "STDERR"; "FSTAT"; "R2"; "R2ADJ"; "DW"; "LOGLIK"]%string.
(** k_cceqs.cpp:118-136, 452-477: the methods; k_cceqs.cpp:180-206, 501-509: the tests that are saved, with their positions
    (equations.h:41-54). *)
Definition METHODS : list (str * Z) := [(S2L "LSQ", 0); (S2L "ZELLNER", 1); (S2L "INF", 2); (S2L "GLS", 3); (S2L "MAXLIK", 4)].
Definition TESTS : list (str * nat) :=
  [(S2L "STDEV", 1); (S2L "MEANY", 2); (S2L "SSRES", 3); (S2L "STDERR", 4); (S2L "FSTAT", 6); (S2L "R2", 7); (S2L "R2ADJ", 8);
   (S2L "DW", 9); (S2L "LOGLIK", 10)]%nat.
Definition no_tests : list dbl := repeat (S754_zero false) 20.

(** * Loading *)

(** yy.cpp:65-102 [K_read_long]. *)
Fixpoint long_loop (fuel : nat) (minus : bool) (y : yy) : io (Z * yy) :=
  match fuel with
  | O => Unmodelled
  | S k =>
    try '(l, y') <- lex KE_TABLE y;
    match l with
    | L_TYPE Y_LONG => Done (if minus then - long_of (text y') else long_of (text y'), y')
    | L_TYPE Y_SPECIAL =>
      match text y' with
      | c :: _ => if code c =? 45 then long_loop k true y' else if code c =? 43 then long_loop k false y' else Done (0, unread y')
      | [] => Done (0, unread y')
      end
    | _ => Done (0, unread y')
    end
  end.
Definition read_long (y : yy) : io (Z * yy) := long_loop (S (S (length (rest y)))) false y.
(** yy.cpp:111-120 [K_read_str], and std::string of its result: of a null pointer, undefined. *)
Definition read_str (y : yy) : io (str * yy) :=
  try '(l, y') <- lex KE_TABLE y; match l with L_TYPE Y_STRING => Done (text y', y') | _ => Undefined end.
Fixpoint set_nth (l : list dbl) (i : nat) (x : dbl) : list dbl :=
  match l, i with [], _ => [] | _ :: l', O => x :: l' | a :: l', S j => a :: set_nth l' j x end.
Fixpoint assoc {V} (k : str) (l : list (str * V)) : option V :=
  match l with [] => None | (x, v) :: l' => if str_eqb k x then Some v else assoc k l' end.
(** k_cceqs.cpp:102-214: the entries between the braces; [q] has the formula. None: the null pointer. *)
Definition set_text (key t : str) (q : equation) : equation :=
  if str_eqb key (S2L "BLOCK") then mkEq (lec q) (method q) (sampl q) (comment q) t (instr q) (date q) (tests q)
  else if str_eqb key (S2L "COMMENT") then mkEq (lec q) (method q) (sampl q) t (block q) (instr q) (date q) (tests q)
  else mkEq (lec q) (method q) (sampl q) (comment q) (block q) t (date q) (tests q).
Fixpoint entries (fuel : nat) (q : equation) (y : yy) : io (option equation * yy) :=
  match fuel with
  | O => Unmodelled
  | S k =>
    try '(l, y1) <- lex KE_TABLE y;
    match l with
    | L_TYPE Y_WORD | L_TYPE Y_EOF => Done (Some q, unread y1)
    | L_KEY w =>
      if str_eqb w (S2L "}") then Done (Some q, y1)
      else if str_eqb w (S2L "DATE") then
        try '(d, y2) <- read_long y1; entries k (mkEq (lec q) (method q) (sampl q) (comment q) (block q) (instr q) d (tests q)) y2
      else if str_eqb w (S2L "SAMPLE") then
        try '(s, y2) <- read_smpl KE_TABLE y1;
        match s with
        | None => Done (None, y2)
        | Some s => entries k (mkEq (lec q) (method q) (Some s) (comment q) (block q) (instr q) (date q) (tests q)) y2
        end
      else if existsb (str_eqb w) (map S2L ["BLOCK"; "COMMENT"; "INSTRUMENTS"]%string) then
        try '(t, y2) <- read_str y1;
        match t with [] => Done (None, y2) | _ => entries k (set_text w t q) y2 end
      else
        match assoc w METHODS with
        | Some m => entries k (mkEq (lec q) m (sampl q) (comment q) (block q) (instr q) (date q) (tests q)) y1
        | None =>
          match assoc w TESTS with
          | Some i =>
            try '(x, y2) <- read_real KE_TABLE y1;
            entries k (mkEq (lec q) (method q) (sampl q) (comment q) (block q) (instr q) (date q) (set_nth (tests q) i (to_float x))) y2
          | None => entries k q y1
          end
        end
    | _ => entries k q y1
    end
  end.
(** equations.h:134-155: the constructor; 240-256 [set_lec]; 302-343 [set_sample] with the texts of the two periods. *)
Definition construct (compiles : str -> str -> bool) (name : str) (q : equation) : io equation :=
  try s <- match sampl q with
           | None => Done None
           | Some s =>
             match period_to_string (s_start s), period_to_string (s_end s) with
             | [], [] => Done None
             | [], _ | _, [] => Unmodelled
             | a, b => try r <- of_res (parse_sample a b); Done (Some r)
             end
           end;
  Done (mkEq (if compiles name (lec q) then lec q else []) (method q) s (comment q) (block q) (instr q) (date q) (tests q)).
(** k_cceqs.cpp:60-224 [read_eq]. *)
Definition with_lec (t : str) : equation := mkEq t 0 None [] [] [] 0 no_tests.
Definition read_eq (compiles : str -> str -> bool) (name : str) (y : yy) : io (option equation * yy) :=
  try '(l, y1) <- lex KE_TABLE y;
  let open := match l with L_KEY w => str_eqb w (S2L "{") | _ => false end in
  try '(t, y2) <- read_str (if open then y1 else unread y1);
  match wrap t 60 with
  | [] => Done (None, y2)
  | f =>
    if open then
      try '(q, y3) <- entries (fuel_of y2) (with_lec f) y2;
      match q with None => Done (None, y3) | Some q => try r <- construct compiles name q; Done (Some r, y3) end
    else try r <- construct compiles name (with_lec f); Done (Some r, y2)
  end.
(** k_cceqs.cpp:297-375 [load_asc]. Names are read with [YY_read]: no keyword is found. *)
Definition own_block (name : str) (q : equation) : equation :=
  match block q with
  | [] => mkEq (lec q) (method q) (sampl q) (comment q) name (instr q) (date q) (tests q)
  | _ => q
  end.
Definition read_equation (compiles : str -> str -> bool) (db : smap equation) (name : str) (y : yy) : io (smap equation * bool * yy) :=
  try '(q, y1) <- read_eq compiles name y;
  match q with
  | None => Done (db, false, y1)
  | Some q => match set_in EQUATIONS db name (own_block name q) with Some db' => Done (db', true, y1) | None => Done (db, false, y1) end
  end.
Definition load_equations (compiles : str -> str -> bool) (file : str) : io (bool * smap equation) :=
  let y := opened file in load_loop (fuel_of y) [] (read_equation compiles) [] y.

(** * Saving *)

Definition TAB : ascii := chr 9.
Definition line (t : str) : str := TAB :: t ++ [LF].
(** k_cceqs.cpp:389-393 [print_test]. *)
Definition test_line (q : equation) (x : str * nat) : str :=
  let v := nth (snd x) (tests q) (S754_zero false) in
  if negb (SFeqb v (S754_zero false)) && d_num v then line (fst x ++ SP :: print_g 8 v) else [].
Definition method_line (m : Z) : str :=
  match List.find (fun x => snd x =? m) METHODS with
  | Some x => line (fst x)
  | None => line (S2L "/* UNKNOWN ESTIMATION METHOD: " ++ to_string m ++ S2L "*/")
  end.
(** k_cceqs.cpp:446-513 [print_eq]; the block is printed as it is (483). *)
Definition print_eq (q : equation) : str :=
  S2L "{" ++ [LF] ++ line (QUOTE :: lec q ++ [QUOTE]) ++ method_line (method q) ++ line (S2L "BLOCK " ++ QUOTE :: block q ++ [QUOTE]) ++
  match trim (comment q) with [] => [] | c => line (S2L "COMMENT " ++ quoted c) end ++
  match trim (instr q) with [] => [] | _ => line (S2L "INSTRUMENTS " ++ QUOTE :: instr q ++ [QUOTE]) end ++
  match sampl q with
  | None => []
  | Some s =>
    line (S2L "SAMPLE " ++ period_to_string (s_start s) ++ SP :: period_to_string (s_end s)) ++ line (S2L "DATE " ++ to_string (date q)) ++
    flat_map (test_line q) TESTS
  end ++ S2L "}" ++ [LF].
(** k_cceqs.cpp:525-571. *)
Definition save_equations (db : smap equation) : str := flat_map (fun x => fst x ++ SP :: print_eq (snd x)) db.
