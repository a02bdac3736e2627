(** What an estimation leaves in the workspaces: api/estimation/k_est.cpp, api/estimation/estimation.h (constructor, [estimate]),
    api/report/commands/b_est.cpp ([B_EqsEstimateEqs]).
    The estimation of one block itself ([E_est], e_est.cpp:593-627) is a parameter: given the method, the sample, the equations with
    their formulas, the instruments, the scalars and the variables, it gives the scalars it leaves and, when it succeeds, its results.
    Simplifications: the scalars and variables are those of the workspaces (E_DBS, E_DBV); E_DBE is the workspace of equations or one of
    its subsets, given by its keys (they share their objects); messages and printed results are left out; a formula that was
    just estimated compiles again (equations.h:243-257); the sample, once printed and read again (k_est.cpp:149-154), is the same. *)
From Coq Require Import ZArith Ascii String List Bool Floats.SpecFloat.
From Verif Require Import M_Base M_Report M_Time M_Names M_Lex M_Compile M_Bytes M_Exec M_Double M_Decimal M_Kdb M_Grep M_Ascii M_AsciiEqs.
Import ListNotations.
Open Scope Z_scope.

(** One row for each equation of the block: the 11 tests in the order of equations.h:48-61 (k_est.cpp:304-314), E_RHS, E_LHS and E_U;
    [r_nce] is E_NCE. *)
Record results := mkR { r_tests : list (list dbl); r_nce : Z; r_calc : list (list dbl); r_obs : list (list dbl); r_res : list (list dbl) }.
(** [scope]: the keys of the subset E_DBE, None if it is the workspace. *)
Record world := mkW { eqs : smap equation; scope : option (list str); scls : smap scalar; vars : smap (list dbl) }.
Definition ukey (n : str) : str := to_key UPPER_CASE n.
Definition put_eq (n : str) (q : equation) (w : world) : world := mkW (M_Kdb.put (ukey n) q (eqs w)) (scope w) (scls w) (vars w).
(** kdb.h:726-743 [E_DBE->contains]. *)
Definition in_scope (w : world) (n : str) : bool :=
  match scope w with
  | None => match M_Kdb.find (ukey n) (eqs w) with Some _ => true | None => false end
  | Some l => existsb (str_eqb (ukey n)) l
  end.
(** k_est.cpp:45-53 [E_savescl]. *)
Definition scalar_name (j : nat) (txt : str) : str := S2L "e" ++ to_string (Z.of_nat j) ++ S2L "_" ++ txt.
Definition E_savescl (x : dbl) (j : nat) (txt : str) (w : world) : world :=
  mkW (eqs w) (scope w) (M_Kdb.put (scalar_name j txt) (mkScl x (d_ofZ 1) d_na) (scls w)) (vars w).
Definition TXTS : list (str * nat) :=
  [(S2L "stdev", 1); (S2L "meany", 2); (S2L "ssres", 3); (S2L "stderr", 4); (S2L "stderrp", 5); (S2L "fstat", 6); (S2L "r2", 7);
   (S2L "r2adj", 8); (S2L "dw", 9); (S2L "loglik", 10)]%nat.
(** k_est.cpp:74-92 [E_tests2scl]. *)
Definition E_tests2scl (t : list dbl) (j : nat) (n k : Z) (w : world) : world :=
  fold_left (fun w x => E_savescl (nth (snd x) t d_na) j (fst x) w) TXTS
    (E_savescl (d_ofZ k) j (S2L "k") (E_savescl (d_ofZ n) j (S2L "n") w)).
Section Est.
Variable est : Z -> sample -> list (str * str) -> list str -> smap scalar -> smap (list dbl) -> smap scalar * option results.
(** The sample of the variables, the date, and the values 11 to 19 of the local array of tests, which are not initialised
    (k_est.cpp:203, 167). *)
Variable vs : option sample.
Variable today : Z.
Variable junk : list dbl.
(** k_est.cpp:107-125 [E_savevar], k_wsvar.cpp:151-183 [KV_add]; a write out of the variable is undefined. *)
Definition E_savevar (name : str) (j : nat) (row : list dbl) (from nb t : Z) (w : world) : res world :=
  if (from <? 0) || (nb <? from + t) || negb (Z.of_nat (length row) =? t) then UB
  else Ok (mkW (eqs w) (scope w) (scls w)
    (M_Kdb.put (name ++ to_string (Z.of_nat j)) (repeat d_na (Z.to_nat from) ++ row ++ repeat d_na (Z.to_nat (nb - from - t))) (vars w))).
(** k_est.cpp:139-180 [KE_update]; [set_obj_ptr] puts the new equation in the workspace too (kdb.h:484-504). *)
Definition KE_update (n f : str) (met : Z) (s : sample) (t : list dbl) (w : world) : world :=
  let m := if (0 <=? met) && (met <? 5) then met else 0 in
  match in_scope w n, M_Kdb.find (ukey n) (eqs w) with
  | true, Some q => put_eq n (mkEq f m (Some s) (comment q) (block q) (instr q) today t) w
  | _, _ =>
    let w1 := put_eq n (mkEq f m (Some s) [] n [] today t) w in
    mkW (eqs w1) (match scope w with Some l => Some (ukey n :: l) | None => None end) (scls w1) (vars w1)
  end.
(** k_est.cpp:302-328. *)
Fixpoint save_all (j : nat) (l : list (str * str)) (met : Z) (s : sample) (r : results) (from nb : Z) (w : world) : res world :=
  match l with
  | [] => Ok w
  | (n, f) :: l' =>
    match nth_error (r_tests r) j, nth_error (r_calc r) j, nth_error (r_obs r) j, nth_error (r_res r) j with
    | Some t, Some c, Some o, Some u =>
      let tests := map to_float t ++ junk in
      let w1 := E_tests2scl tests j (s_nb s) (r_nce r) (KE_update n f met s tests w) in
      do w2 <- E_savevar (S2L "_YCALC") j c from nb (s_nb s) w1;
      do w3 <- E_savevar (S2L "_YOBS") j o from nb (s_nb s) w2;
      do w4 <- E_savevar (S2L "_YRES") j u from nb (s_nb s) w3;
      save_all (S j) l' met s r from nb w4
    | _, _, _, _ => UB
    end
  end.
(** k_est.cpp:260-291: the equations of the block; when one is missing, blk is freed twice (lines 281 and 340). *)
Fixpoint block_of (w : world) (l : list str) : res (list (str * str)) :=
  match l with
  | [] => Ok []
  | b :: l' =>
    match M_Kdb.find (ukey (sqz b)) (eqs w) with
    | None => UB
    | Some q => do r <- block_of w l'; Ok ((sqz b, lec q) :: r)
    end
  end.
(** k_est.cpp:214-333: one turn of the loop; [met]: est_method; the boolean is false for -1. *)
Definition est_one (smpl : option sample) (met : Z) (n : str) (w : world) : res (bool * list str * world) :=
  if negb (in_scope w n) then Ok (false, [], w)
  else
    match M_Kdb.find (ukey n) (eqs w) with
    | None => Throw
    | Some q =>
      let w1 := put_eq n (mkEq (lec q) (method q) (sampl q) (comment q) (block q) (instr q) (date q) no_tests) w in
      let m := if met <? 0 then method q else met in
      match (match smpl with Some s => Some s | None => sampl q end) with
      | None => Ok (false, [], w1)
      | Some s =>
        if s_nb s <? 1 then Ok (false, [], w1)
        else
          do l <- (match vtoms (S2L " ,;") (block q) with [] => Ok [(n, lec q)] | b => block_of w1 b end);
          match vs with
          | None => Throw
          | Some v =>
            if s_nb v =? 0 then Throw
            else
              do from <- difference (s_start s) (s_start v);
              let '(sc, o) := est m s l (vtoms (S2L ",;") (instr q)) (scls w1) (vars w1) in
              let w2 := mkW (eqs w1) (scope w1) sc (vars w1) in
              match o with
              | None => Ok (false, [], w2)
              | Some r => do w3 <- save_all 0 l m s r from (s_nb v) w2; Ok (true, map fst l, w3)
              end
          end
      end
    end.
(** k_est.cpp:196-343 [KE_est_s]; [done]: estimated_eqs. *)
Fixpoint est_loop (smpl : option sample) (met : Z) (names : list str) (done : list str) (w : world) : res (bool * world) :=
  match names with
  | [] => Ok (true, w)
  | n :: l =>
    if existsb (str_eqb n) done then est_loop smpl met l done w
    else
      do r <- est_one smpl met n w;
      let '(ok, ns, w1) := r in
      if ok then est_loop smpl met l (ns ++ done) w1 else Ok (false, w1)
  end.
(** estimation.h:263-296, 205-232: the constructor and [estimate]; [smpl]: the sample given, if any. *)
Definition estimate (smpl : option sample) (met : Z) (names : list str) (w : world) : res (bool * world) :=
  match names with
  | [] => Throw
  | _ =>
    if 5 <=? met then Throw
    else match (match smpl with Some s => Some s | None => vs end) with
         | None => Throw
         | Some s => est_loop (Some s) (if 0 <=? met then met else -1) names [] w
         end
  end.
(** b_est.cpp:77-104 [B_EqsEstimateEqs], the command EqsEstimate, for names without wildcards: E_DBE is the subset of the equations
    that are named. *)
Definition has_eq (w : world) (n : str) : bool := match M_Kdb.find (ukey n) (eqs w) with Some _ => true | None => false end.
Definition B_EqsEstimateEqs (s : sample) (names : list str) (w : world) : res (bool * world) :=
  match map ukey (filter (has_eq w) names) with
  | [] => Ok (false, w)
  | ks => estimate (Some s) (-1) names (mkW (eqs w) (Some ks) (scls w) (vars w))
  end.
End Est.
