(** Aggregation of variables: api/objs/k_grep.cpp [K_aggr] and api/objs/k_wsvar.cpp [KV_aggregate]. *)
From Coq Require Import ZArith Ascii String List Bool.
From Verif Require Import M_Base M_Names M_Lex M_Exec M_Kdb.
Import ListNotations.
Open Scope Z_scope.

(** k_grep.cpp:230-262, the loop of [K_aggr]; [c]: K_AggrChar, the character 0 until it is set
    (commands.h:9). The end of a list is the terminating null of the string. The name written has at most as many
    characters as [name]: it fits in the buffer of the caller (k_wsvar.cpp:491). *)
Fixpoint aggr_loop (c : ascii) (pat name : str) (inb : bool) : option str :=
  match pat with
  | [] => match name with [] => Some [] | _ => None end
  | p :: pat' =>
    match name with
    | [] => if (code p =? 93) || (code p =? 41) then aggr_loop c pat' [] (if code p =? 93 then false else inb) else None
    | x :: name' =>
      if (code p =? 40) || (code p =? 41) then aggr_loop c pat' name inb
      else if code p =? 91 then aggr_loop c pat' name true
      else if code p =? 93 then aggr_loop c pat' name false
      else if code p =? 63 then
        if inb then if Ascii.eqb x c then None else option_map (cons c) (aggr_loop c pat' name' inb)
        else option_map (cons x) (aggr_loop c pat' name' inb)
      else if Ascii.eqb p x then option_map (cons x) (aggr_loop c pat' name' inb)
      else None
    end
  end.
(** The C string in a buffer; scr4/s_stsqz.c:46-57 [SCR_sqz]. *)
Fixpoint c_string (s : str) : str :=
  match s with [] => [] | x :: s' => if code x =? 0 then [] else x :: c_string s' end.
Definition squeeze (s : str) : str := filter (fun x => negb (code x =? 32)) s.
(** k_grep.cpp:225-270 [K_aggr]. *)
Definition aggr_name (c : ascii) (pat name : str) : option str :=
  option_map (fun n => squeeze (c_string n)) (aggr_loop c pat name false).

Section Aggr.
Variable A : arith.
Notation val := (F A).
(** 1: product; 2: mean; others: sum. *)
Variable method : Z.

(** k_wsvar.cpp:557-574. *)
Definition combine_one (n e : val) : val :=
  if num A e then (if method =? 1 then mul A n e else M_Exec.add A n e) else na A.
Fixpoint combine (n e : list val) : list val :=
  match n, e with
  | x :: n', y :: e' => combine_one x y :: combine n' e'
  | _, _ => n
  end.

(** The counters (k_wsvar.cpp:491-518, 534-547): [slots] of them are allocated, by 500. *)
Record counters := { slots : Z; times : Z -> Z }.
Definition count (t : counters) (p z : Z) : counters :=
  {| slots := slots t; times := fun q => if q =? p then z else times t q |}.
Definition pos_in (k : str) (m : smap (list val)) : Z := match position k m with Some i => i | None => -1 end.
(** 534-543: the counter of a new group. *)
Definition first_count (t : counters) (p : Z) : res counters :=
  let t := if slots t - 1 <? p then {| slots := slots t + 500; times := times t |} else t in
  if p <? slots t then Ok (count t p 1) else UB.
(** 544-548. *)
Definition next_count (t : counters) (p : Z) : res counters :=
  if p <? slots t then Ok (count t p (times t p + 1)) else UB.

(** k_wsvar.cpp:524-578. [ndb]: the result; [npos]: the position of the group of the last variable kept. *)
Fixpoint aggr_all (c : ascii) (pat : str) (l : smap (list val)) (ndb : smap (list val)) (t : counters) (npos : Z)
  : res (smap (list val) * counters * Z) :=
  match l with
  | [] => Ok (ndb, t, npos)
  | (ename, e) :: l' =>
    match aggr_name c pat ename with
    | None => aggr_all c pat l' ndb t npos
    | Some nname =>
      let key := to_key UPPER_CASE nname in
      match find key ndb with
      | None =>
        do _ <- check_name key VARIABLES;
        let ndb := put key e ndb in
        let p := pos_in key ndb in
        do t <- first_count t p;
        aggr_all c pat l' ndb t p
      | Some n =>
        let p := pos_in key ndb in
        do t <- next_count t p;
        aggr_all c pat l' (put key (combine n e) ndb) t p
      end
    end
  end.

(** k_wsvar.cpp:486-596 [KV_aggregate] of the variables [l] with [nb] periods; the file is already loaded. Without
    periods the indeterminate pointer [times] is freed (513-514, 594). *)
Definition aggregate (c : ascii) (pat : str) (nb : Z) (l : smap (list val)) : res (smap (list val)) :=
  if nb =? 0 then UB
  else
    do r <- aggr_all c pat l [] {| slots := 500; times := fun _ => 0 |} 0;
    let '(ndb, t, npos) := r in
    if (method =? 2) && negb (match ndb with [] => true | _ => false end) then
      if npos <? slots t then
        Ok (map (fun kv => (fst kv, map (fun v => if num A v then dvd A v (ofZ A (times t npos)) else v) (snd kv))) ndb)
      else UB
    else Ok ndb.
End Aggr.
