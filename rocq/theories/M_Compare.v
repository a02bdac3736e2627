(** Model of the comparison of a workspace with a file: api/objs/k_cmp.cpp, api/report/commands/b_data.cpp:1476-1640
    (DataCompare, DataCompareEps).

    - A database is the map of api/objs/kdb.h: the workspace (without subset) and the file after [load], which is a parameter
      (the empty map when the file cannot be read).
    - The comparison of two objects is a parameter, except for variables.
    - The five arguments have been split by [B_vtom_chk].  Error messages are not modelled. *)
From Coq Require Import ZArith Ascii String List Bool Lia.
From Verif Require Import M_Base M_Names M_Lex M_Kdb M_Exec M_Lists.
Import ListNotations.
Open Scope Z_scope.

Section Compare.
Context {T : Type}.
Variable ty : otype.
(** The operators == of the objects, [K_compare_var]. *)
Variable same : T -> T -> res bool.

Definition is_cmt : bool := match ty with COMMENTS => true | _ => false end.
(** kdb.h:726-743 [contains]. *)
Definition has_name (m : smap T) (name : str) : bool :=
  if is_cmt then existsb (fun k => str_eqb (to_lower k) (to_lower (trim name))) (keys m)
  else match M_Kdb.find (to_key (mode_of ty) name) m with Some _ => true | None => false end.
(** kdb.h:752-775 [get_key] (the last match for the comments), 1097-1115 [get_obj_ptr]. *)
Definition object_of (m : smap T) (name : str) : res T :=
  let key := if is_cmt then fold_left (fun acc k => if str_eqb (to_lower k) (to_lower (trim name)) then k else acc) (keys m) []
             else to_key (mode_of ty) name in
  match M_Kdb.find key m with Some v => Ok v | None => Throw end.
(** kdb.h:889-914 [remove] on a database without subset. *)
Definition remove_name (m : smap T) (name : str) : smap T :=
  let key := to_key (mode_of ty) name in if has_name m key then del key m else m.

(** k_cmp.cpp:69-159 [K_compare]. *)
Inductive verdict := Nowhere | First_only | Second_only | Equal | Different.
Definition K_compare (name : str) (k1 k2 : smap T) : res verdict :=
  match has_name k1 name, has_name k2 name with
  | false, false => Ok Nowhere
  | true, false => Ok First_only
  | false, true => Ok Second_only
  | true, true =>
    match object_of k1 name, object_of k2 name with
    | Ok a, Ok b => match same a b with Ok true => Ok Equal | Ok false => Ok Different | Throw => Throw | UB => UB end
    | _, _ => Throw
    end
  end.
(** The four tables of names, in the order of the command. *)
Definition tables := (list str * list str * list str * list str)%type.
(** b_data.cpp:1507-1547: the names of the workspace, one after the other; the second database shrinks. *)
Fixpoint compare_names (names : list str) (k1 k2 : smap T) (t : tables) : res (tables * smap T) :=
  match names with
  | [] => Ok (t, k2)
  | n :: names' =>
    let '(l1, l2, l3, l4) := t in
    match K_compare n k1 k2 with
    | Ok Nowhere => compare_names names' k1 k2 t
    | Ok First_only => compare_names names' k1 k2 (l1 ++ [n], l2, l3, l4)
    | Ok Second_only => compare_names names' k1 k2 (l1, l2 ++ [n], l3, l4)
    | Ok Equal => compare_names names' k1 (remove_name k2 n) (l1, l2, l3 ++ [n], l4)
    | Ok Different => compare_names names' k1 (remove_name k2 n) (l1, l2, l3, l4 ++ [n])
    | Throw => Throw
    | UB => UB
    end
  end.
(** b_data.cpp:1507-1557: then the names that are left in the second database. *)
Definition compare (k1 k2 : smap T) : res tables :=
  match compare_names (keys k1) k1 k2 ([], [], [], []) with
  | Ok ((l1, l2, l3, l4), k2') => Ok (l1, l2 ++ keys k2', l3, l4)
  | Throw => Throw
  | UB => UB
  end.
(** b_data.cpp:1561-1564: four lists one after the other; the code is the last one. *)
Definition store4 (ws : lists) (one two three four : str) (t : tables) : res (bool * lists) :=
  let '(l1, l2, l3, l4) := t in
  match KL_lst ws one l1 10000 with
  | Ok (_, ws1) =>
    match KL_lst ws1 two l2 10000 with
    | Ok (_, ws2) => match KL_lst ws2 three l3 10000 with Ok (_, ws3) => KL_lst ws3 four l4 10000 | e => e end
    | e => e
    end
  | e => e
  end.
(** b_data.cpp:1486-1572 [template_data_compare]: [k2] is the content of the file; an exception gives the code -1. *)
Definition DataCompare (ws : lists) (k1 k2 : smap T) (one two three four : str) : res (bool * lists) :=
  match k2 with
  | [] => Ok (false, ws)
  | _ => match compare k1 k2 with
         | Ok t => store4 ws one two three four t
         | Throw => Ok (false, ws)
         | UB => UB
         end
  end.
End Compare.

Section Variables.
Context (A : arith).
Notation F := (F A).
(** k_cmp.cpp:25-43 [K_cmpvar_1]. *)
Definition K_cmpvar_1 (eps v1 v2 : F) : bool :=
  if eq A v1 v2 then true
  else if eq A v1 (ofZ A 0) then lt A (abs A v2) eps
  else lt A (abs A (dvd A (sub A v1 v2) v1)) eps.
(** k_cmp.cpp:45-53 [K_compare_var]: [n] periods of the sample of the workspace, from the position of the values that are left;
    [UB]: after the end of a variable. *)
Fixpoint K_compare_var (n : nat) (eps : F) (v1 v2 : list F) : res bool :=
  match n with
  | O => Ok true
  | S n' =>
    match v1, v2 with
    | x :: v1', y :: v2' => if K_cmpvar_1 eps x y then K_compare_var n' eps v1' v2' else Ok false
    | _, _ => UB
    end
  end.
(** b_data.cpp:1476-1483 [B_DataCompareEps]: the threshold for an argument. *)
Definition compare_eps (arg least : F) : F :=
  let e := if lt A arg least then least else arg in if lt A (ofZ A 1) e then ofZ A 1 else e.
End Variables.
