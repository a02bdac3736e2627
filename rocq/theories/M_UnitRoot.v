(** The Dickey-Fuller test: api/estimation/e_dftest.cpp. The estimation is the one of M_EstSave, the values of the tested formula
    ([L_cc_link_exec], l_exec.cpp:306-334) are given: None if it does not compile or link.
    Simplifications: the variables have a sample [v], as long as the values; E_DBE is the workspace; messages and the printing of the
    results are left out; ints do not overflow. *)
From Coq Require Import ZArith Ascii String List Bool Floats.SpecFloat.
From Verif Require Import M_Base M_Report M_Time M_Names M_Lex M_Compile M_Bytes M_Exec M_Double M_Decimal M_Kdb M_Grep M_Ascii M_AsciiEqs M_EstSave.
Import ListNotations.
Open Scope Z_scope.

Definition DF : str := S2L "_DF".
(** e_dftest.cpp:45-49, 54-56: the position of the first number, and how many follow each other. *)
Fixpoint first_num (v : list dbl) : nat := match v with [] => 0 | x :: v' => if d_num x then 0 else S (first_num v') end%nat.
Fixpoint run_num (v : list dbl) : nat := match v with [] => 0 | x :: v' => if d_num x then S (run_num v') else 0 end%nat.
(** e_dftest.cpp:190-211: the formula; the names of the coefficients. *)
Fixpoint count (n : nat) : list Z := match n with O => [] | S n' => count n' ++ [Z.of_nat n] end.
Definition formula (drift trend order : Z) : str :=
  S2L "d(_DF) := df_ * _DF[-1]" ++ (if drift =? 0 then [] else S2L "+ df_d") ++ (if trend =? 0 then [] else S2L "+ df_t*t") ++
  flat_map (fun i => S2L " + df" ++ to_string i ++ S2L "*d(_DF[-" ++ to_string i ++ S2L "])") (count (Z.to_nat order)).
Definition coefs (drift trend order : Z) : list str :=
  S2L "df_" :: (if drift =? 0 then [] else [S2L "df_d"]) ++ (if trend =? 0 then [] else [S2L "df_t"]) ++
  map (fun i => S2L "df" ++ to_string i) (count (Z.to_nat order)).
(** constants.h:229 [IODE_IS_0]. *)
Definition tiny36 : dbl := scan (S2L "1.0e-36").
Definition IODE_IS_0 (x : dbl) : bool :=
  (SFltb (d_ofZ 0) x && SFltb x tiny36) || (SFleb x (d_ofZ 0) && SFltb (SFopp x) tiny36).
(** e_dftest.cpp:263-273 [E_SclToReal]: value, standard error, t-test; None: not written, in an array that is not initialised. *)
Definition E_SclToReal (db : smap scalar) (name : str) : option dbl * option dbl * option dbl :=
  match M_Kdb.find name db with
  | None => (None, None, None)
  | Some s => (Some (M_Ascii.value s), Some (std s), if IODE_IS_0 (std s) then None else Some (d_div (M_Ascii.value s) (std s)))
  end.
Section UnitRoot.
Variable est : Z -> sample -> list (str * str) -> list str -> smap scalar -> smap (list dbl) -> smap scalar * option results.
Variable v : sample.
Variable today : Z.
Variable junk : list dbl.
(** e_dftest.cpp:110-126 [E_UnitRoot_1]. *)
Definition E_UnitRoot_1 (s : sample) (f : str) (w : world) : res (bool * world) :=
  do r <- estimate est (Some v) today junk (Some s) (-1) [DF] (put_eq DF (mkEq f 0 None [] [] [] 0 no_tests) w);
  let '(ok, w1) := r in
  Ok (ok, mkW (M_Kdb.del DF (eqs w1)) (scope w1) (scls w1) (vars w1)).
(** e_dftest.cpp:149-253 [E_UnitRoot]; buf holds 1024 characters; the array of the results has (drift + trend + order + 1) * 3 values. *)
Definition E_UnitRoot (vec : option (list dbl)) (drift trend order : Z) (w : world) :
  res (option (list (option dbl * option dbl * option dbl)) * world) :=
  match vec with
  | None => Ok (None, w)
  | Some x =>
    let t0 := first_num x in
    let t1 := (t0 + run_num (skipn t0 x))%nat in
    do a <- shift (s_start v) (Z.of_nat t0);
    do b <- shift (s_start v) (Z.of_nat t1);
    do nb <- difference b a;
    do a1 <- shift a 1;
    if nb - 1 <? (drift + trend + order + 1) * 2 then Ok (None, mkW (eqs w) (scope w) (scls w) (M_Kdb.del DF (M_Kdb.put DF x (vars w))))
    else if 1023 <? Z.of_nat (length (formula drift trend order)) then UB
    else
      let names := coefs drift trend order in
      let sc := fold_left (fun db n => M_Kdb.put n (mkScl d09 (d_ofZ 1) d_na) db) names (scls w) in
      do a2 <- shift a1 order;
      do r <- E_UnitRoot_1 (mkS a2 b (nb - 1 - order)) (formula drift trend order) (mkW (eqs w) (scope w) sc (M_Kdb.put DF x (vars w)));
      let '(ok, w1) := r in
      let w2 := mkW (eqs w1) (scope w1) (fold_left (fun db n => M_Kdb.del n db) names (scls w1)) (vars w1) in
      if ok then
        if drift + trend + order + 1 <? Z.of_nat (length names) then UB
        else Ok (Some (map (E_SclToReal (scls w1)) names), w2)
      else Ok (None, w2)
  end.
End UnitRoot.
