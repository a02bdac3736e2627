(** Model of the wildcard matcher of scr4/s_stgrep.c and of its use on the names of a database.

    Simplifications:
    - texts are NUL free byte lists; [char] is signed, so the accented cases of [SCR_upper_char]
      (scr4/s_stupp.c, codes above 127) never apply and only the 26 letters change;
    - the pattern buffer is modified and restored around the recursive calls of the cases '!' and
      '|' (s_stgrep.c:110-112, 119-121): the recursive call is written on the modified pattern. *)
From Coq Require Import ZArith Ascii String List Bool Lia.
From Verif Require Import M_Base M_Names M_Lex M_Kdb.
Import ListNotations.
Open Scope Z_scope.

(** scr4/s_stisal.c:17-64 [SCR_is_anum], with the underscore accepted at s_stgrep.c:99, 104. *)
Definition word_char (c : ascii) : bool := isdigit c || isalpha c || (code c =? 95).

(** s_stgrep.c:62-63: the pattern made of the single character [all]. *)
Definition only_all (all : ascii) (p : str) : bool :=
  match p with [c] => Ascii.eqb c all | _ => false end.

(** s_stgrep.c:73-79: comparison of a character with a literal one. *)
Definition same_char (ecase : bool) (x d : ascii) : bool :=
  if ecase then Ascii.eqb x d else Ascii.eqb (toupper x) (toupper d).

(** s_stgrep.c:59-139 [SCR_grep_1]: [p] is [pattern + i], [s] is [string + j], [nbeg] is
    [nbeg != 0] and [first] is [j == 0]; [Ok true] for the code 0, [Ok false] for -1.  A literal
    character is compared in the iteration that follows (variable [esc]).  The case '&' at the end
    of the text moves beyond the terminating NUL, which the next iteration reads: [UB]. *)
Fixpoint grep_loop (ecase : bool) (all : ascii) (p s : str) (nbeg first : bool) {struct p} : res bool :=
  match p with
  | [] => Ok (match s with [] => true | _ => false end)
  | c :: p' =>
    if code c =? 92 (* backslash *) then
      match p', s with
      | [], [] => Ok true
      | [], _ => Ok false
      | _ :: _, [] => Ok false
      | d :: p'', x :: s' => if same_char ecase x d then grep_loop ecase all p'' s' nbeg false else Ok false
      end
    else if code c =? 63 (* ? *) then
      match s with [] => Ok false | _ :: s' => grep_loop ecase all p' s' nbeg false end
    else if code c =? 64 (* @ *) then
      match s with
      | [] => Ok false
      | x :: s' => if word_char x then grep_loop ecase all p' s' nbeg false else Ok false
      end
    else if code c =? 38 (* & *) then
      match s with
      | [] => UB
      | x :: s' => if word_char x then Ok false else grep_loop ecase all p' s' nbeg false
      end
    else if (code c =? 33) || (code c =? 124) (* ! | *) then
      match s with
      | [] => grep_loop ecase all p' [] nbeg first
      | x :: s' =>
        do rc <- (if only_all all ((if code c =? 33 then chr 38 else chr 64) :: p') then Ok true
                  else if eqb (word_char x) (code c =? 124)
                       then grep_loop ecase all p' s' (negb first) false
                       else Ok false);
        if rc then Ok true
        else if negb nbeg && first
             then if only_all all p' then Ok true else grep_loop ecase all p' s true true
             else Ok false
      end
    else if Ascii.eqb c all then
      match p' with
      | [] => Ok true
      | _ =>
        (fix scan (s : str) (first : bool) : res bool :=
           match s with
           | [] => Ok false
           | _ :: s' =>
             do rc <- (if only_all all p' then Ok true else grep_loop ecase all p' s (negb first) true);
             if rc then Ok true else scan s' false
           end) s first
      end
    else
      match s with
      | [] => Ok false
      | x :: s' => if same_char ecase x c then grep_loop ecase all p' s' nbeg false else Ok false
      end
  end.

(** s_stgrep.c:54-57 [SCR_grep_gnl] *)
Definition grep_gnl (p s : str) (ecase : bool) (all : ascii) : res bool :=
  if only_all all p then Ok true else grep_loop ecase all p s false true.

(** k_grep.cpp:54-90 [KDB::grep] on names only ([names] true, [forms] and [texts] false; then
    [grep_obj] finds nothing). *)
Fixpoint grep_each (p : str) (ecase : bool) (all : ascii) (names : list str) : res (list str) :=
  match names with
  | [] => Ok []
  | n :: l =>
    do b <- grep_gnl p n ecase all;
    do r <- grep_each p ecase all l;
    Ok (if b then n :: r else r)
  end.
Definition grep_names (p : str) (ecase : bool) (all : ascii) (names : list str) : res (list str) :=
  if only_all all p then Ok names else grep_each p ecase all names.

(** utils.h:251-267 [split_multi] *)
Fixpoint split_multi (seps : ascii -> bool) (s : str) : list str :=
  match s with
  | [] => [[]]
  | c :: s' =>
    if seps c then [] :: split_multi seps s'
    else match split_multi seps s' with w :: l => (c :: w) :: l | [] => [[c]] end
  end.

(** [string_contains(s, c)] *)
Definition contains_char (c : ascii) (s : str) : bool := existsb (Ascii.eqb c) s.

(** k_grep.cpp:186-215 [KDB::expand], before the names are joined by ';'. *)
Fixpoint expand_each (all : ascii) (names : list str) (patterns : list str) : res (list str) :=
  match patterns with
  | [] => Ok []
  | p :: l =>
    let q := trim p in
    do r1 <- (match q with
              | [] => Ok []
              | c :: _ =>
                if negb (code c =? 34) && (contains_char all q || contains_char (chr 63) q)
                then grep_names q false all names else Ok [q]
              end);
    do r2 <- expand_each all names l;
    Ok (r1 ++ r2)
  end.
Definition expand (seps : ascii -> bool) (all : ascii) (names : list str) (p : str) : res (list str) :=
  match p with [] => Ok [] | _ => expand_each all names (split_multi seps p) end.

(** kdb.h:322: the separators " ,;\n\t\r". *)
Definition filter_seps (c : ascii) : bool := existsb (fun z => code c =? z) [32; 44; 59; 10; 9; 13].

(** [!key.empty()] *)
Definition nonempty (k : str) : bool := match k with [] => false | _ => true end.
(** kdb.h:308-365 [filter_names] with [must_exist] true, on the database [b].  [B_ainit_chk] splits
    the joined list again; its expansion of [@file], [$list] and double quoted items is not
    modelled.  [std::set<std::string>] keeps one copy of each name: only membership matters. *)
Definition filter_by_pattern (ty : otype) (b : db) (p : str) : res (list str) :=
  match p with
  | [] => Ok []
  | _ =>
    if str_eqb p (S2L "*") then Ok (keys (objs b))
    else
      do l <- expand filter_seps (chr 42) (keys (objs b)) p;
      match filter nonempty (map (get_key ty b) l) with
      | [] => Throw
      | r => Ok r
      end
  end.
