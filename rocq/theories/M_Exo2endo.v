(** Goal seeking, exchange of endogenous and exogenous variables: api/simulation/k_sim_exo2endo.cpp and the loop
    of [simulate] (k_sim_main.cpp:604-652). *)
From Coq Require Import ZArith Ascii String List Bool.
From Verif Require Import M_Base M_Names M_Lex M_Bytes M_Order.
Import ListNotations.
Open Scope Z_scope.

(** kdb.h:803-818 [get_name], throws when out of range. *)
Definition name_at (names : list str) (i : Z) : res str :=
  if i <? 0 then Throw else match nth_error names (Z.to_nat i) with Some n => Ok n | None => Throw end.

(** [KSIM_DBE->get_obj_ptr(name)->clec->objs]; throws when there is no such equation (kdb.h, std::map lookups). *)
Definition objs_of (dbe : list str) (m : model) (name : str) : res (list (str * Z)) :=
  let i := pos_of dbe name in if i <? 0 then Throw else getz (objs m) i.

(** KSIM_POSXK[poseq] = pos; KSIM_POSXK_REV[pos] = poseq. *)
Definition assign (m : model) (poseq pos : Z) : res model :=
  do xk <- setz (posxk m) poseq pos;
  do rv <- setz (posrev m) pos poseq;
  Ok (mkM (objs m) xk rv).

(** k_sim_exo2endo.cpp:98-109: the variable is in the equation. *)
Definition contains (o : list (str * Z)) (posexo : Z) : bool :=
  existsb (fun p => negb (is_coefficient (fst p)) && (snd p =? posexo)) o.

(** k_sim_exo2endo.cpp:114-157, the loop on the objects of the equation; [find] is the recursive call. Result: the
    tables, KSIM_PATH, and whether the return code is 0. *)
Fixpoint try_objs (find : Z -> model -> list bool -> res (model * list bool * bool)) (poseq : Z)
  (o : list (str * Z)) (m : model) (path : list bool) : res (model * list bool * bool) :=
  match o with
  | [] => Ok (m, path, false)
  | (name, pos) :: o' =>
    if is_coefficient name then try_objs find poseq o' m path
    else
      do posseq <- get_eq_position m pos;
      if (poseq =? posseq) || (posseq <? 0) then try_objs find poseq o' m path
      else
        do seen <- getz path posseq;
        if seen : bool then try_objs find poseq o' m path
        else
          do path <- setz path posseq true;
          do r <- find pos m path;
          let '(m, path, ok) := (r : model * list bool * bool) in
          if ok : bool then do m <- assign m poseq pos; Ok (m, path, true)
          else try_objs find poseq o' m path
  end.

(** k_sim_exo2endo.cpp:82-158 [find_path]: [depth] of the code is KSIM_MAXDEPTH + 1 - [fuel]. The copy of the
    CLEC made in the loop (116-119) is not used. *)
Fixpoint find_path (fuel : nat) (vars dbe : list str) (posexo posendo : Z) (m : model) (path : list bool)
  : res (model * list bool * bool) :=
  match fuel with
  | O => Ok (m, path, false)
  | S f =>
    if posexo <? 0 then Ok (m, path, false)
    else
      do poseq <- get_eq_position m posendo;
      do name <- name_at vars posendo;
      do o <- objs_of dbe m name;
      if contains o posexo then do m <- assign m poseq posexo; Ok (m, path, true)
      else try_objs (find_path f vars dbe posexo) poseq o m path
  end.

(** k_sim_exo2endo.cpp:178-217 [exo_to_endo]: the tables and whether the return code is 0; KSIM_PATH is cleared
    before each search. *)
Definition exo_to_endo (vars dbe : list str) (m : model) (posendo posexo : Z) : res (model * bool) :=
  do endo <- get_eq_position m posendo;
  if endo <? 0 then Ok (m, false)
  else
    do exo <- get_eq_position m posexo;
    if 0 <=? exo then Ok (m, false)
    else
      do r <- find_path (S (length (objs m))) vars dbe posexo posendo m (repeat false (length (objs m)));
      let '(m, _, ok) := (r : model * list bool * bool) in Ok (m, ok).

(** k_sim_main.cpp:619-647, one couple "endo-exo": None when the simulation stops with an error. *)
Definition exchange (vars dbe : list str) (m : model) (endo exo : str) : res (option model) :=
  let posendo := pos_of vars endo in
  if posendo <? 0 then Ok None
  else
    let posexo := pos_of vars exo in
    if posexo <? 0 then Ok None
    else do r <- exo_to_endo vars dbe m posendo posexo; Ok (if snd r then Some (fst r) else None).

(** k_sim_main.cpp:604-652, all the couples. *)
Fixpoint exchanges (vars dbe : list str) (m : model) (l : list (str * str)) : res (option model) :=
  match l with
  | [] => Ok (Some m)
  | (endo, exo) :: l' =>
    do r <- exchange vars dbe m endo exo;
    match r with None => Ok None | Some m => exchanges vars dbe m l' end
  end.
