(** Model of the search for the variables and the scalars of formulas: api/objs/k_lst.cpp:28-197, command DataScan
    (api/report/commands/b_data.cpp:980-1100).

    - A database of identities, equations or tables is a map; a formula is the list of the names of its compiled form
      ([CLEC::objs]); [None] is a null pointer.  A table has the formulas of its cells.
    - The temporary databases of names are maps to [unit].
    - [get_subset] (C06) is not repeated: the database is the one to analyse. *)
From Coq Require Import ZArith Ascii String List Bool Lia.
From Verif Require Import M_Base M_Names M_Lex M_Kdb M_Lists.
Import ListNotations.
Open Scope Z_scope.

Definition names_db := smap unit.
(** kdb.h:1194-1202 [set]; k_wsvar.cpp:601-617: a variable without values in a database without sample. *)
Definition set_name (ty : otype) (d : names_db) (name : str) : option names_db :=
  let key := to_key (mode_of ty) name in match check_name key ty with Ok _ => Some (M_Kdb.put key tt d) | _ => None end.
Definition formula := option (list str).
(** k_lst.cpp:100-122 [K_clecscan]: [inside] is [kdb.contains]. *)
Fixpoint clec_names (inside : str -> bool) (names : list str) (exo scal : names_db) : option (names_db * names_db) :=
  match names with
  | [] => Some (exo, scal)
  | n :: l =>
    if is_coefficient n then match set_name SCALARS scal n with Some s => clec_names inside l exo s | None => None end
    else if inside n then clec_names inside l exo scal
    else match set_name VARIABLES exo n with Some e => clec_names inside l e scal | None => None end
  end.
Definition K_clecscan (inside : str -> bool) (cl : formula) (exo scal : names_db) : option (names_db * names_db) :=
  match cl with None => Some (exo, scal) | Some names => clec_names inside names exo scal end.
Fixpoint scan_formulas (inside : str -> bool) (l : list formula) (exo scal : names_db) : option (names_db * names_db) :=
  match l with
  | [] => Some (exo, scal)
  | f :: l' => match K_clecscan inside f exo scal with Some (e, s) => scan_formulas inside l' e s | None => None end
  end.
(** k_lst.cpp:136-142 [KE_scan], 157-163 [KI_scan], 178-197 [KT_scan]: a table is compared with an empty database. *)
Definition inside (ty : otype) (kdb : smap (list formula)) (n : str) : bool :=
  match ty with
  | TABLES => false
  | _ => match M_Kdb.find (to_key (mode_of ty) n) kdb with Some _ => true | None => false end
  end.
(** k_lst.cpp:37-83 [K_scan], with the names _EXO and _SCAL of the command; [Throw]: a name is refused. *)
Definition DataScan (ty : otype) (ws : lists) (kdb : smap (list formula)) : res (bool * lists) :=
  match kdb with
  | [] => Ok (false, ws)
  | _ =>
    match scan_formulas (inside ty kdb) (flat_map snd kdb) [] [] with
    | None => Throw
    | Some (exo, scal) =>
      match KL_lst ws (S2L "_SCAL") (keys scal) 200 with
      | Ok (_, ws1) => match KL_lst ws1 (S2L "_EXO") (keys exo) 200 with Ok (_, ws2) => Ok (true, ws2) | Throw => Throw | UB => UB end
      | Throw => Throw
      | UB => UB
      end
    end
  end.
