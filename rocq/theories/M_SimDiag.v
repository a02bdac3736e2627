(** The diagnostics of a simulation: number of passes and convergence reached, by period (KSIM_NITERS, KSIM_NORMS),
    the report commands that save them in variables and the report functions that read them.

    Simplifications:
    - the arrays are functions of the position with the length they were allocated with; reading beyond it is
      undefined;
    - the variables of the workspace all have the length of its sample, and the workspace exists;
    - the elapsed times (KSIM_CPUS) are not modelled;
    - the formula given to $DataCalcVar is evaluated by a parameter. *)
From Coq Require Import ZArith Ascii String List Bool.
From Verif Require Import M_Base M_Report M_Time M_Names M_Bytes M_Exec M_Kdb M_Ascii M_Order M_Exo2endo M_Simul.
Import ListNotations.
Open Scope Z_scope.

(** k_sim_main.cpp:110-111: KSIM_NITERS and KSIM_NORMS, with the number of elements allocated. *)
Record diag (A : arith) := mkD { d_nb : Z; d_iters : Z -> Z; d_norms : Z -> F A }.
Arguments mkD {A}. Arguments d_nb {A}. Arguments d_iters {A}. Arguments d_norms {A}.

(** k_sim_main.cpp:582-588: new arrays; scr4/s_allc.c:189-212 [SCR_malloc] fills with zeros. *)
Definition fresh (A : arith) (nb : Z) : diag A := mkD nb (fun _ => 0) (fun _ => ofZ A 0).
Definition upd {X} (f : Z -> X) (t : Z) (x : X) (p : Z) : X := if p =? t then x else f p.
(** k_sim_main.cpp:446-458: zero before the passes, then set after each of them. *)
Definition record {A} (t : Z) (r : outcome A) (d : diag A) : diag A :=
  mkD (d_nb d) (upd (d_iters d) t (Z.of_nat (r_iters r)))
    (upd (d_norms d) t (match r_iters r with O => ofZ A 0 | S _ => r_norm r end)).

Section Periods.
Variable A : arith.
Variable Q : eqns A.
Variable P : params A.
Variable m : model.
Variable o : ordering.
(** k_sim_main.cpp:665-691, as [M_Simul.periods], with the diagnostics. *)
Fixpoint periods_d (nb : Z) (exos : list Z) (keys : Z -> nat -> bool) (n : nat) (t : Z) (s : values A) (xk : list (F A)) (norm : F A)
  (d : diag A) : values A * bool * diag A :=
  match n with
  | O => (s, true, d)
  | S n' =>
    let r := simulate_period A Q P m o (keys t) t s xk norm in
    let d := record t r d in
    match r_stop r with
    | CONVERGED => periods_d nb exos keys n' (t + 1) (copy_forward A nb t exos (r_s r)) (r_xk r) (r_norm r) d
    | _ => (r_s r, false, d)
    end
  end.
End Periods.

(** k_sim_main.cpp:539-709 [simulate], as [M_Simul.run], with the diagnostics: [prev] before the call (None: no
    simulation yet). The checks of 549-572 come before the allocation, the others after it. *)
Section Run.
Variable A : arith.
Variable evalue : Z -> values A -> Z -> F A.
Variable duplicated : Z -> bool.
Variable garbage : F A.
Variable P : params A.
Definition run_d (vars scl : list str) (eqs : list (str * list str)) (l : list (str * str)) (given : list str)
  (sort : sort_option) (passes : nat) (nb at_ bt : Z) (n : nat) (keys : Z -> nat -> bool) (s : values A) (norm : F A)
  (prev : option (diag A)) : res (values A * bool * option (diag A)) :=
  match eqs with
  | [] => Ok (s, false, prev)
  | _ =>
    if (bt <? 0) || (at_ <? 0) then Ok (s, false, prev)
    else
      do m <- link_model vars scl eqs;
      match m with
      | None => Ok (s, false, Some (fresh A nb))
      | Some m =>
        do m <- exchanges vars (map fst eqs) m l;
        match m with
        | None => Ok (s, false, Some (fresh A nb))
        | Some m =>
          do o <- order m (map fst eqs) given sort passes;
          let '(s, ok, d) := periods_d A (equations_of A evalue duplicated garbage vars eqs) P m o nb (map (fun c => pos_of vars (snd c)) l) keys n at_ s
            (map (fun _ => ofZ A 0) (part o (o_pre o) (o_inter o))) norm (fresh A nb) in
          Ok (s, ok, Some d)
        end
      end
  end.
End Run.

(** * Reading them *)

(** b_rep_fns.cpp:1485-1505 [RPF_CalcPeriod], the text of the period being read: -1 out of the sample. *)
Definition position (ws : sample) (p : period) : res Z :=
  if year p =? 0 then Ok (-1)
  else
    do t <- difference p (s_start ws);
    if t <? 0 then Ok (-1)
    else do a <- difference p (s_end ws); if 0 <? a then Ok (-1) else Ok t.
(** b_rep_fns.cpp:1615-1690 [RPF_SimNormReal], [RPF_SimNIterInt]: None is the empty text. *)
Definition at_position {A X} (d : option (diag A)) (get : diag A -> Z -> X) (ws : sample) (p : period) : res (option X) :=
  do t <- position ws p;
  if t <? 0 then Ok None
  else match d with
       | None => Ok None
       | Some d => if t <? d_nb d then Ok (Some (get d t)) else UB
       end.
Definition SimNIter {A} (d : option (diag A)) (ws : sample) (p : period) : res (option Z) := at_position d d_iters ws p.
(** A negative number is written as an empty text too. *)
Definition SimNorm {A} (d : option (diag A)) (ws : sample) (p : period) : res (option (F A)) :=
  do x <- at_position d d_norms ws p;
  Ok (match x with Some v => if lt A v (ofZ A 0) then None else Some v | None => None end).

(** * Saving them *)

Section Save.
Variable A : arith.
(** The values of a formula; None: it does not compile or link. *)
Variable formula : str -> smap (list (F A)) -> option (list (F A)).
Variable nb : Z.    (* periods of the workspace *)

(** b_data.cpp:238-298 [B_DataCalcVar]: the return code and the variables. *)
Definition DataCalcVar (arg : str) (vars : smap (list (F A))) : Z * smap (list (F A)) :=
  let '(name, rest) := get_arg0 arg 21 in
  let lec := strip (skipn (S (length name)) rest) in
  match (match M_Kdb.find (to_key UPPER_CASE name) vars with
         | Some _ => Some vars
         | None => set_in VARIABLES vars name (repeat (na A) (Z.to_nat nb))
         end) with
  | None => (-1, vars)
  | Some vars =>
    match lec with
    | [] => (0, vars)
    | _ => match formula lec vars with
           | Some x => (0, M_Kdb.put (to_key UPPER_CASE name) x vars)
           | None => (-1, vars)
           end
    end
  end.
(** b_model.cpp:382-392 [B_CreateEmptyVar]; the array of 1024 characters is checked by the caller below. *)
Definition CreateEmptyVar (name : str) (vars : smap (list (F A))) : smap (list (F A)) :=
  snd (DataCalcVar (sqz (map upper_char name) ++ S2L " 1/0") vars).
(** b_model.cpp:401-411 [B_GetVarPtr], 421-444 [B_CreateVarFromVecOfDoubles], 453-476 [B_CreateVarFromVecOfInts]:
    [vec] is the array with its number of elements, None when it is null. *)
Definition CreateVarFromVec (name : str) (vec : option (Z * (Z -> F A))) (vars : smap (list (F A))) : res (Z * smap (list (F A))) :=
  if 1024 <=? Z.of_nat (length name) then UB
  else
    let vars := CreateEmptyVar name vars in
    let key := to_upper (trim name) in
    match M_Kdb.find key vars with
    | None => Ok (-1, vars)
    | Some _ =>
      match vec with
      | None => Ok (0, vars)
      | Some (n, g) =>
        if n <? nb then UB
        else Ok (0, M_Kdb.put key (map (fun t => g (Z.of_nat t)) (seq 0 (Z.to_nat nb))) vars)
      end
    end.
(** b_model.cpp:486-489, 499-502 [B_ModelSimulateSaveNIters], [B_ModelSimulateSaveNorms]. *)
Definition SaveNIters (name : str) (d : option (diag A)) : smap (list (F A)) -> res (Z * smap (list (F A))) :=
  CreateVarFromVec name (option_map (fun d => (d_nb d, fun t => ofZ A (d_iters d t))) d).
Definition SaveNorms (name : str) (d : option (diag A)) : smap (list (F A)) -> res (Z * smap (list (F A))) :=
  CreateVarFromVec name (option_map (fun d => (d_nb d, d_norms d)) d).
End Save.
