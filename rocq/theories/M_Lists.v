(** Model of the lists: the expansion of arguments (scr4/s_ainit.c through api/b_args.cpp), the lists that commands
    create (api/objs/k_lst.cpp) and the calculus on lists (api/report/commands/b_data.cpp).

    - The workspace of lists is the map of api/objs/kdb.h for a global database without subset.
    - The files read by @name are a parameter; they hold text without NUL.
    - The separators are those of a session (b_api.cpp:62).  Texts have no NUL and no byte 255 (which [A_read] takes for
      the end of the text).  Memory allocation always succeeds.
    - Error messages are not modelled. *)
From Coq Require Import ZArith Ascii String List Bool Lia.
From Verif Require Import M_Base M_Names M_Lex M_Kdb M_Report.
Import ListNotations.
Open Scope Z_scope.

(** ** The workspace of lists *)
Definition lists := smap str.
(** kdb.h:726-743 [contains] with 1097-1115 [get_obj_ptr], for lists. *)
Definition list_of (ws : lists) (name : str) : option str := M_Kdb.find (to_key UPPER_CASE name) ws.
(** kdb.h:1118-1180 [set_obj_ptr], 1194-1202 [set]; [None]: [check_name] throws. *)
Definition set_list (ws : lists) (name text : str) : option lists :=
  let key := to_key UPPER_CASE name in
  match check_name key LISTS with Ok _ => Some (M_Kdb.put key text ws) | _ => None end.

(** ** Arguments *)

(** s_ainit.c:275-310 [A_read] on a text: the next word and what follows; [w] is the word read so far, [q] the flag of a
    quoted word. *)
Fixpoint a_read (s w : str) (q : bool) : option (str * str) :=
  match s with
  | [] => match w with [] => None | _ => Some (w, []) end
  | c :: s' =>
    if negb q && mem A_SEPS c then
      match w with [] => a_read s' [] q | _ => Some (w, s') end
    else if Nat.ltb (length w) A_MAX_ARG then
      if Ascii.eqb c QUOTE then
        match w with
        | [] => a_read s' [] true
        | _ => if q then Some (w, s') else a_read s' w q
        end
      else a_read s' (w ++ [c]) q
    else a_read s' w q
  end.

(** The words added by several calls, and whether one of them set [A_D]. *)
Definition gather (l : list (list str * bool)) : list str * bool := (concat (map fst l), existsb snd l).

Section Args.
Variable files : str -> option str.
Variable ws : lists.

(** What "@name" and "$name" stand for (s_ainit.c:166-196, k_super.cpp:586-597). *)
Definition content (word : str) : option str :=
  match word with
  | c :: name => if is 64 c then files name else list_of ws name
  | [] => None
  end.
(** s_ainit.c:150-231 [A_add]: [left] is 10 - [A_NB_OPEN]; [n] is more than the length of the argument. *)
Fixpoint a_add (left : nat) : nat -> str -> list str * bool :=
  fix add (n : nat) (arg : str) {struct n} : list str * bool :=
    match n with
    | O => ([], false)
    | S n' =>
      let finish (t : str) := gather (map (fun w => if expands w then add n' w else ([w], false)) (aread t [] false)) in
      if expands arg then
        match left with
        | O => ([], false)
        | S left' =>
          match a_read arg [] false with
          | None => ([], false)
          | Some (word, rest) =>
            match content word with
            | None => match word with c :: _ => if is 64 c then ([], false) else ([word], true) | [] => ([], false) end
            | Some t => gather (map (fun w => a_add left' (S (length w)) w) (aread t [] false) ++ [finish rest])
            end
          end
        end
      else finish arg
    end.
Definition add_arg (arg : str) : list str * bool := a_add 10 (S (length arg)) arg.
(** s_ainit.c:62-143 [A_init], [A_initv], [A_initv1] (s_aiexp.c: [A_iexpand] does nothing), b_args.cpp:58-74
    [B_ainit_chk] without an expected number: [None] is the null pointer. *)
Definition a_init (text : str) : option (list str) :=
  let (l, d) := add_arg text in
  if d then let (l', d') := gather (map add_arg l) in if d' then None else Some l' else Some l.
End Args.
(** The words of a table; none for the null pointer (s_staddp.c:198-205 [SCR_tbl_size]). *)
Definition table (o : option (list str)) : list str := match o with Some l => l | None => [] end.

(** b_args.cpp:90-107 [B_vtom_chk]: the arguments, if there are [n]. *)
Definition vtom_chk (arg : str) : list str := vtomsq B_SEPS arg.

(** ** Lists made by commands *)

(** k_lst.cpp:254-275: the sublists; [j] is the number of the next one; a name is cut at 20 characters; [UB]: [buf]
    overflows. *)
Definition sub_name (name : str) (j : Z) : str := name ++ to_string j.
Fixpoint sub_lists (n : nat) (ws : lists) (name : str) (chunk : nat) (j : Z) (l : list str) : res (bool * lists * Z) :=
  match n, l with
  | S n', _ :: _ =>
    if 29 <? Z.of_nat (length (sub_name name j)) then UB
    else
      match set_list ws (firstn 20 (sub_name name j)) (mtov (firstn chunk l) [chr 59]) with
      | Some ws' => sub_lists n' ws' name chunk (j + 1) (skipn chunk l)
      | None => Ok (false, ws, j + 1)
      end
  | _, _ => Ok (true, ws, j)
  end.
(** k_lst.cpp:279-286: the text of the main list. *)
Fixpoint main_text (n : nat) (name : str) (j : Z) : res str :=
  match n with
  | O => Ok []
  | S n' =>
    let b := chr 36 :: sub_name name j ++ [chr 59] in
    if 29 <? Z.of_nat (length b) then UB
    else match main_text n' name (j + 1) with Ok t => Ok (firstn 20 b ++ t) | Throw => Throw | UB => UB end
  end.
Definition keep (ws : lists) (o : option lists) : bool * lists := match o with Some ws' => (true, ws') | None => (false, ws) end.
(** k_lst.cpp:219-305 [KL_lst]; [chunk] is not 0. *)
Definition KL_lst (ws : lists) (name : str) (l : list str) (chunk : Z) : res (bool * lists) :=
  let nb := Z.of_nat (length l) in
  if nb =? 0 then Ok (keep ws (set_list ws name []))
  else if (nb <? chunk) || (chunk <? 0) then Ok (keep ws (set_list ws name (mtov l [chr 59])))
  else
    match sub_lists (length l) ws name (Z.to_nat chunk) 0 l with
    | Ok (true, ws', j) =>
      match main_text (Z.to_nat j) name 0 with
      | Ok t => Ok (keep ws' (set_list ws' name t))
      | Throw => Throw
      | UB => UB
      end
    | Ok (false, ws', _) => Ok (false, ws')
    | Throw => Throw
    | UB => UB
    end.

(** k_lst.cpp:326-367 [KL_expand]. [UB]: an empty list leaves a table without end; [memcpy] between overlapping zones;
    lists that contain themselves never end (more levels than lists).  A copy of a zone on itself is accepted. *)
Definition L_SEPS : str := [BLANK; chr 44; chr 59; chr 9; chr 10; chr 13; chr 12].
Section Expand.
Variable ws : lists.
Fixpoint expand_words (sub : str -> res (list str)) (l : list str) : res (list str) :=
  match l with
  | [] => Ok []
  | w :: l' =>
    match (match w with c :: name => if is 36 c then list_of ws name else None | [] => None end) with
    | None => match expand_words sub l' with Ok r => Ok (w :: r) | Throw => Throw | UB => UB end
    | Some t =>
      match sub t with
      | Ok [] => UB
      | Ok l2 =>
        if Nat.ltb 1 (length l2) && Nat.leb (length l2) (length l') then UB
        else match expand_words sub l' with Ok r => Ok (l2 ++ r) | Throw => Throw | UB => UB end
      | Throw => Throw
      | UB => UB
      end
    end
  end.
Fixpoint kl_expand (depth : nat) (text : str) : res (list str) :=
  match depth with
  | O => UB
  | S d => expand_words (kl_expand d) (vtoms L_SEPS text)
  end.
Definition KL_expand (text : str) : res (list str) := kl_expand (S (S (length ws))) text.
End Expand.

(** ** Operations on tables of words (scr4) *)

Definition has (l : list str) (w : str) : bool := existsb (str_eqb w) l.
(** s_stun.c:4-15 [SCR_add_tbl], 28-48 [SCR_union]. *)
Definition add_tbl (l : list str) (w : str) : list str := if has l w then l else l ++ [w].
Definition SCR_union (a b : option (list str)) : list str :=
  match a, b with Some a, Some b => fold_left add_tbl b (fold_left add_tbl a []) | _, _ => [] end.
(** s_stinte.c:15-36 [SCR_inter]. *)
Definition SCR_inter (a b : option (list str)) : list str :=
  match a, b with Some a, Some b => fold_left add_tbl (filter (has b) a) [] | _, _ => [] end.
(** s_stdiff.c:15-36 [SCR_dif]. *)
Definition SCR_dif (a b : option (list str)) : list str :=
  match a, b with Some a, Some b => filter (fun w => negb (has b w)) a | _, _ => [] end.
(** b_data.cpp:1325-1358 [Lst_times]. *)
Definition Lst_times (a b : option (list str)) : list str := flat_map (fun x => map (app x) (table b)) (table a).
(** [strcmp]; [qsort] as an insertion: the result of a sort is unique, since words that compare equal are equal. *)
Fixpoint insert (w : str) (l : list str) : list str :=
  match l with
  | [] => [w]
  | x :: l' => if str_ltb x w then x :: insert w l' else w :: l
  end.
Definition sort (l : list str) : list str := fold_right insert [] l.

(** ** Commands: whether the return code is not -1, and the lists. *)
Section Commands.
Variable files : str -> option str.
Notation a_init ws t := (a_init files ws t).

(** b_data.cpp:1377-1443 [B_DataCalcLst]. *)
Definition DataCalcLst (ws : lists) (arg : str) : res (bool * lists) :=
  match vtom_chk arg with
  | [r; n1; op; n2] =>
    match list_of ws n1, list_of ws n2 with
    | Some t1, Some t2 =>
      let l1 := a_init ws t1 in let l2 := a_init ws t2 in
      match op with
      | c :: _ =>
        if is 43 c then KL_lst ws r (SCR_union l1 l2) (-1)
        else if is 42 c then KL_lst ws r (SCR_inter l1 l2) (-1)
        else if is 45 c then KL_lst ws r (SCR_dif l1 l2) (-1)
        else if is 120 c then KL_lst ws r (Lst_times l1 l2) (-1)
        else Ok (false, ws)
      | [] => Ok (false, ws)
      end
    | _, _ => Ok (false, ws)
    end
  | _ => Ok (false, ws)
  end.
(** b_data.cpp:907-977 [B_DataListSort]; the exception of a name that is refused is not caught. *)
Definition DataListSort (ws : lists) (arg : str) : res (bool * lists) :=
  match vtom_chk arg with
  | [inp; out] =>
    match list_of ws inp with
    | None => Ok (false, ws)
    | Some t =>
      match a_init ws t with
      | None => Ok (false, ws)
      | Some l => match set_list ws out (mtov (sort l) [chr 59]) with Some ws' => Ok (true, ws') | None => Throw end
      end
    end
  | _ => Ok (false, ws)
  end.
(** b_data.cpp:1451-1465 [B_DataListCount]. *)
Definition DataListCount (ws : lists) (name : str) : res Z :=
  match list_of ws name with None => Throw | Some t => Ok (Z.of_nat (length (table (a_init ws t)))) end.
(** b_data.cpp:1119-1175 [B_DataAppend] for lists; [UB]: no character follows the name. *)
Definition DataAppendLst (ws : lists) (arg : str) : res (bool * lists) :=
  let (name, t) := get_arg0 arg 21 in
  if Nat.leb (length t) (length name) then UB
  else
    let text := skipn (S (length name)) t in
    match set_list ws name (match list_of ws name with None => text | Some old => old ++ chr 44 :: text end) with
    | Some ws' => Ok (true, ws')
    | None => Throw
    end.
End Commands.
