(** Estimation of the coefficients of a block of equations: api/estimation/e_prep.cpp, e_est.cpp, e_tests.cpp.

    Simplifications: the equations are compiled and linked ([rhs], [in_eq]: external calls), the left hand sides and the
    instruments are calculated; the coefficients of the block are the list [coefs], in the order of E_C_NBS, the other scalars and
    the variables do not change (E_rhs_ij is a function of the coefficients). The member variables that are written before every
    use (E_C, E_dC, E_GMU and the working matrices) are local. The logarithm of the likelihood is left out. *)
From Coq Require Import ZArith List Bool.
From Verif Require Import M_Base M_Exec M_Matrix.
Import ListNotations.
Open Scope Z_scope.

(** equations.h:33-40 [IodeEquationMethod]. *)
Inductive emethod := EQ_LSQ | EQ_ZELLNER | EQ_INSTRUMENTAL | EQ_GLS | EQ_MAX_LIKELIHOOD.

(** The problem, after E_prep (e_prep.cpp:578-590): E_T, E_NEQ, E_LHS, the right hand sides (e_est.cpp:90-95 [E_rhs_ij]: equation,
    coefficients, period), e_est.cpp:268-279 [E_scl_in_eq] (coefficient, equation), E_SMO, E_MET, E_EPS, E_MAXIT, E_NINSTR (0 for the
    methods without instruments, e_prep.cpp:227-233) and E_D. *)
Record problem (A : arith) := mkProblem {
  T : nat; NEQ : nat; lhs : mat A; rhs : nat -> list (F A) -> nat -> F A; in_eq : nat -> nat -> bool;
  relax : list (F A); met : emethod; eps : F A; maxit : nat; ninstr : nat; D : mat A }.
Arguments T {A}. Arguments NEQ {A}. Arguments lhs {A}. Arguments rhs {A}. Arguments in_eq {A}. Arguments relax {A}. Arguments met {A}.
Arguments eps {A}. Arguments maxit {A}. Arguments ninstr {A}. Arguments D {A}.

(** The workspace of scalars (values of the coefficients) and the matrices that remain after a step. *)
Record state (A : arith) := mkState {
  coefs : list (F A); m_rhs : mat A; m_u : mat A; m_g : mat A; m_vcu : mat A; m_ivcu : mat A; m_mcu : mat A; m_vcc : mat A;
  it : nat; conv_test : F A }.
Arguments mkState {A}. Arguments coefs {A}. Arguments m_rhs {A}. Arguments m_u {A}. Arguments m_g {A}. Arguments m_vcu {A}.
Arguments m_ivcu {A}. Arguments m_mcu {A}. Arguments m_vcc {A}. Arguments it {A}. Arguments conv_test {A}.

(** The return code 0, the return code -1 with the coefficients left in the workspace, or undefined behaviour. *)
Inductive outcome (A : arith) := Found (s : state A) | NotFound (c : list (F A)) | Undef.
Arguments Found {A}. Arguments NotFound {A}. Arguments Undef {A}.

Section Estim.
Context (A : arith).
Notation F := (F A).
Notation "x +. y" := (add A x y) (at level 50, left associativity).
Notation "x -. y" := (sub A x y) (at level 50, left associativity).
Notation "x *. y" := (mul A x y) (at level 40, left associativity).
Notation "x /. y" := (dvd A x y) (at level 40, left associativity).
Notation "x =. y" := (eq A x y) (at level 70).
Notation "# z" := (ofZ A z) (at level 1).

Definition upd (k : nat) (x : F) (c : list F) : list F := map (fun i => if Nat.eqb i k then x else nth i c #0) (seq 0 (length c)).
(** The constants 1e-15, 0.1, 1e-4 and FLT_MAX (quotients: in double the nearest numbers). *)
Definition tiny (x : F) : bool := lt A (abs A x) (#1 /. #(10 ^ 15)).
Definition tenth : F := #1 /. #10.
Definition step_h : F := #1 /. #10000.
Definition MAXFLOAT : F := #340282346638528859811704183484516925440.

Section Problem.
Context (p : problem A).
Notation NC := (length (relax p)).
Definition estimated (k : nat) : bool := negb (nth k (relax p) #0 =. #0).
Definition est : list nat := filter estimated (seq 0 NC).
(** e_prep.cpp:323-385 [E_prep_coefs]: E_NCE. *)
Definition NCE : nat := length (filter (fun r => lt A #0 r) (relax p)).

(** e_prep.cpp:399-414 [E_get_C]: the workspace and E_C after it (the same). *)
Definition E_get_C (c : list F) : list F :=
  map (fun k => if estimated k && tiny (nth k c #0) then tenth else nth k c #0) (seq 0 NC).

(** e_est.cpp:106-126 [E_c_rhs], 134-141 [E_residuals]. *)
Definition E_c_rhs (c : list F) : option (mat A) :=
  let m := build A (NEQ p) (T p) (fun i t => rhs p i c t) in
  if forallb (forallb (num A)) m then Some m else None.
Definition E_residuals (c : list F) : option (mat A * mat A) :=
  match E_c_rhs c with
  | None => None
  | Some r => Some (r, M_sub A (NEQ p) (T p) (lhs p) r)
  end.

(** e_est.cpp:180-213 [E_mod_residuals]: one line of E_G. The element of equation i and period j is at i * E_T + j. *)
Definition E_mod_residuals (r : mat A) (k : nat) (c : list F) (h : F) : option (list F) :=
  let value i j := let x := rhs p i c j in if lt A x MAXFLOAT then x else na A in
  let at_ n := (Nat.div n (T p), Nat.modulo n (T p)) in
  if forallb (fun n => let '(i, j) := at_ n in negb (in_eq p k i) || num A (value i j)) (seq 0 (NEQ p * T p))
  then Some (map (fun n => let '(i, j) := at_ n in if in_eq p k i then (value i j -. get r i j) /. h else #0) (seq 0 (NEQ p * T p)))
  else None.
(** e_est.cpp:228-258 [E_jacobian]: the values of the coefficients are changed (the old ones are put back, but for the values close to 0). *)
Fixpoint jacobian (r : mat A) (ks : list nat) (c : list F) (rows : list (list F)) : list F * option (mat A) :=
  match ks with
  | [] => (c, Some rows)
  | k :: ks =>
    if estimated k then
      let oldc := if tiny (nth k c #0) then tenth else nth k c #0 in
      match E_mod_residuals r k (upd k (oldc *. (#1 +. step_h)) c) (oldc *. step_h) with
      | None => (upd k oldc c, None)
      | Some row => jacobian r ks (upd k oldc c) (rows ++ [row])
      end
    else jacobian r ks c rows
  end.
Definition E_jacobian (r : mat A) (c : list F) : list F * option (mat A) := jacobian r (seq 0 NC) c [].

(** e_est.cpp:54-79 [E_c_gmg]. *)
Definition E_c_gmg (g ivcu : mat A) : mat A :=
  let n := NCE in
  let part i := M_extr A g 0 (T p * i) n (T p) in
  let weighted i := fold_left (fun m j => M_add A (T p) n m (M_scale A (T p) n (M_trans A n (T p) (part j)) (get ivcu i j))) (seq 0 (NEQ p)) (M_clear A (T p) n) in
  let treated m := if Nat.ltb 1 (ninstr p) then M_prod A (T p) (T p) n (D p) m else m in
  fold_left (fun v i => M_add A n n (M_prod A n (T p) n (part i) (treated (weighted i))) v) (seq 0 (NEQ p)) (M_clear A n n).
(** e_est.cpp:290-316 [E_c_gmu]: with the instruments from one instrument on (E_c_gmg: from two on). *)
Definition E_c_gmu (g u ivcu : mat A) : list F :=
  let n := NCE in
  let part i := M_extr A g 0 (T p * i) n (T p) in
  let weighted i := fold_left (fun m j => M_add A (T p) 1 m (M_scale A (T p) 1 (M_trans A 1 (T p) (M_extr A u j 0 1 (T p))) (get ivcu i j))) (seq 0 (NEQ p)) (M_clear A (T p) 1) in
  let treated m := if Nat.leb 1 (ninstr p) then M_prod A (T p) (T p) 1 (D p) m else m in
  let gmu := fold_left (fun v i => M_add A n 1 (M_prod A n (T p) 1 (part i) (treated (weighted i))) v) (seq 0 (NEQ p)) (M_clear A n 1) in
  map (fun q => get gmu q 0) (seq 0 n).

(** The coefficients that are estimated, and their steps: i and j of the loops of [E_testcv] and [E_adaptcoef]. *)
Definition steps (dC : list F) : list (nat * F) := combine est dC.
(** e_est.cpp:328-357 [E_testcv]: after E_get_C. *)
Definition E_testcv (c dC : list F) : F :=
  sqrt A (fold_left (fun sum '(k, d) =>
    let ci := nth k c #0 in
    if ci =. #0 then sum
    else let tmp := abs A (d /. ci) in
         if lt A tmp (abs A ci) then sum +. tmp *. tmp else sum +. ci *. ci) (steps dC) #0).
(** e_est.cpp:366-381 [E_adaptcoef]. *)
Definition E_adaptcoef (c dC : list F) : list F :=
  fold_left (fun c '(k, d) => upd k (nth k c #0 +. d *. nth k (relax p) #0) c) (steps dC) c.
(** e_est.cpp:391-396 [E_c_vcu], 406-415 [E_c_ivcu], 426-442 [E_c_mcu], 451-461 [E_c_ivcc], constants.h:229 [IODE_IS_0]. *)
Definition E_c_vcu (u : mat A) : mat A := M_scale A (NEQ p) (NEQ p) (M_xxprim A (NEQ p) (T p) u) (#1 /. #(Z.of_nat (T p))).
Definition E_c_ivcu (vcu : mat A) : option (mat A) := M_inv_1 A (NEQ p) vcu.
Definition e36 : F := #1 /. #(10 ^ 36).
Definition IS_0 (x : F) : bool := lt A (abs A x) e36.
Definition E_c_mcu (vcu : mat A) : mat A :=
  build A (NEQ p) (NEQ p) (fun i j =>
    let (i, j) := (max i j, min i j) in
    let x := sqrt A (get vcu i i *. get vcu j j) in if IS_0 x then #0 else get vcu i j /. x).
Definition E_c_ivcc (vcc : mat A) : option (mat A) := M_inv_1 A NCE vcc.

(** e_est.cpp:505-520, with 150-159 [E_deltac]: the body of the loop. *)
Definition iteration (s : state A) : state A * bool + list F :=
  match E_residuals (coefs s) with
  | None => inr (coefs s)
  | Some (r, u) =>
    match E_jacobian r (coefs s) with
    | (c, None) => inr c
    | (c, Some g) =>
      let w := match met p with
               | EQ_MAX_LIKELIHOOD => let v := E_c_vcu u in match E_c_ivcu v with None => None | Some i => Some (v, i) end
               | _ => Some (m_vcu s, m_ivcu s)
               end in
      match w with
      | None => inr c
      | Some (vcu, ivcu) =>
        let gmg := E_c_gmg g ivcu in
        match M_solve A NCE gmg (E_c_gmu g u ivcu) with
        | None => inr c
        | Some dC =>
          let c := E_get_C c in
          let test := E_testcv c dC in
          let conv := lt A test (eps p) || (test =. eps p) in
          inl (mkState (E_adaptcoef c dC) r u g vcu ivcu (m_mcu s) gmg (S (it s)) test, conv)
        end
      end
    end
  end.
(** e_est.cpp:503-521: the loop, as long as E_IT < E_MAXIT ([fuel] = E_MAXIT - E_IT). *)
Fixpoint iterations (fuel : nat) (s : state A) : state A * bool + list F :=
  match fuel with
  | O => inl (s, false)
  | S fuel =>
    match iteration s with
    | inr c => inr c
    | inl (s, true) => inl (s, true)
    | inl (s, false) => iterations fuel s
    end
  end.
(** e_est.cpp:523-525: after the loop. *)
Definition after (s : state A) : state A + list F :=
  let gmg := E_c_gmg (m_g s) (m_ivcu s) in
  match E_residuals (coefs s) with
  | None => inr (coefs s)
  | Some (r, u) =>
    let vcu := E_c_vcu u in
    match E_c_ivcu vcu with
    | None => inr (coefs s)
    | Some ivcu => inl (mkState (coefs s) r u (m_g s) vcu ivcu (m_mcu s) gmg (it s) (conv_test s))
    end
  end.
Definition with_mcu (s : state A) : state A :=
  mkState (coefs s) (m_rhs s) (m_u s) (m_g s) (m_vcu s) (m_ivcu s) (E_c_mcu (m_vcu s)) (m_vcc s) (it s) (conv_test s).
Definition with_vcc (s : state A) (vcc : mat A) : state A :=
  mkState (coefs s) (m_rhs s) (m_u s) (m_g s) (m_vcu s) (m_ivcu s) (m_mcu s) vcc (it s) (conv_test s).
(** e_est.cpp:549-557: the return code. *)
Definition gls_end (s : state A) (conv : bool) : outcome A :=
  if Nat.ltb (it s) (maxit p) && conv then Found s else NotFound (coefs s).
(** e_est.cpp:493-561 [E_gls], with 468-477 [E_c_vcc]: the inverse of E_VCU is calculated again (the same), E_c_gmg and the inverse of
    E_VCC with it, and E_VCU again (the same). *)
Definition E_gls (s : state A) : outcome A :=
  match iterations (maxit p - it s) s with
  | inr c => NotFound c
  | inl (s, conv) =>
    match after s with
    | inr c => NotFound c
    | inl s =>
      match met p with
      | EQ_GLS | EQ_ZELLNER =>
        match iterations (maxit p - it s) (with_mcu s) with
        | inr c => NotFound c
        | inl (s, conv) =>
          match after s with
          | inr c => NotFound c
          | inl s => match E_c_ivcc (m_vcc s) with None => NotFound (coefs s) | Some v => gls_end (with_vcc s v) conv end
          end
        end
      | _ =>
        let s := with_mcu s in
        match E_c_ivcc (E_c_gmg (m_g s) (m_ivcu s)) with
        | None => NotFound (coefs s)
        | Some v => gls_end (with_vcc s v) conv
        end
      end
    end
  end.
(** e_prep.cpp:25-67 [E_prep_alloc], 323-385 [E_prep_coefs], e_est.cpp:590-620 [E_est]: no coefficient with a positive relaxation is an
    error. The matrices have a line for each of those, and a line is written for each coefficient whose relaxation is not 0: a
    negative relaxation is undefined behaviour. [c]: the values in the workspace of scalars. *)
Definition E_est (c : list F) : outcome A :=
  if Nat.eqb NCE 0 then NotFound c
  else if Nat.ltb NCE (length est) then Undef
  else E_gls (mkState (E_get_C c) (M_clear A (NEQ p) (T p)) (M_clear A (NEQ p) (T p)) (M_clear A NCE (NEQ p * T p)) (M_diag A (NEQ p) #1)
                      (M_diag A (NEQ p) #1) (M_clear A (NEQ p) (NEQ p)) (M_clear A NCE NCE) 0 (#999999 /. #100)).

(** e_prep.cpp:221-303 [E_prep_instrs]: E_D for the instruments z (one list of values for each); None: Dreg error. *)
Definition E_prep_instrs (z : list (list F)) : option (mat A) :=
  let n := S (length z) in
  let minstr := build A (T p) n (fun t j => match j with O => #1 | S j => get z j t end) in
  match M_inv_1 A n (M_xprimx A (T p) n minstr) with
  | None => None
  | Some miipi => Some (M_prod A (T p) n (T p) (M_prod A (T p) n n minstr miipi) (M_trans A (T p) n minstr))
  end.

(** * Statistics: e_tests.cpp *)

(** e_tests.cpp:64-69 [E_div_0], 75-81 [E_sqrt]. *)
Definition E_div_0 (a b : F) : F := if b =. #0 then #0 else a /. b.
Definition E_sqrt (x : F) : F := if lt A x #0 then #0 else sqrt A x.
Notation "'#T'" := (#(Z.of_nat (T p))).
(** E_NBCE (e_prep.cpp:343-370). *)
Definition NBCE (i : nat) : nat := length (filter (fun k => in_eq p k i && lt A #0 (nth k (relax p) #0)) (seq 0 NC)).
(** e_tests.cpp:91-116 [E_deg_freed]: for coefficient k. *)
Definition E_DF (k : nat) : F :=
  match filter (in_eq p k) (seq 0 (NEQ p)) with
  | [i] => #(Z.of_nat (T p) - Z.of_nat (NBCE i))
  | _ => #T
  end.
(** e_tests.cpp:181-199 [E_c_mcorr], 207-222 [E_c_mcorru]. *)
Definition E_MCORR (s : state A) : mat A :=
  build A NCE NCE (fun i j =>
    let (i, j) := (max i j, min i j) in
    let v := get (m_vcc s) i i *. get (m_vcc s) j j in
    if lt A #0 v then get (m_vcc s) i j /. E_sqrt v else #0).
Definition E_MCORRU (s : state A) : mat A :=
  build A (NEQ p) (NEQ p) (fun i j =>
    let (i, j) := (max i j, min i j) in
    E_div_0 (get (m_vcu s) i j) (E_sqrt (get (m_vcu s) i i *. get (m_vcu s) j j))).
(** e_tests.cpp:231-252 [E_c_ttests]: the standard error of the estimated coefficient number j (coefficient k). *)
Definition std_error (s : state A) (j k : nat) : F :=
  match met p with
  | EQ_MAX_LIKELIHOOD => E_sqrt (get (m_vcc s) j j)
  | _ => E_sqrt (E_div_0 (get (m_vcc s) j j *. #T) (E_DF k))
  end.
(** e_tests.cpp:275-337 [E_output]: for equation i. *)
Definition SSRES (s : state A) (i : nat) : F := get (m_vcu s) i i *. #T.
Definition STDERR (s : state A) (i : nat) : F := E_sqrt (E_div_0 (get (m_vcu s) i i *. #T) (#T -. #(Z.of_nat (NBCE i)))).
Definition MEAN_Y (i : nat) : F := total_to A (T p) (fun t => get (lhs p) i t) /. #T.
Definition DEV2 (i : nat) : F := total_to A (T p) (fun t => let tmp := get (lhs p) i t -. MEAN_Y i in tmp *. tmp).
Definition STDEV (i : nat) : F := E_sqrt (DEV2 i /. #(Z.of_nat (T p) - 1)).
Definition RSQUARE (s : state A) (i : nat) : F := #1 -. E_div_0 (#T *. get (m_vcu s) i i) (DEV2 i).
Definition RSQUARE_ADJ (s : state A) (i : nat) : F :=
  #1 -. E_div_0 ((#1 -. RSQUARE s i) *. #(Z.of_nat (T p) - 1)) (#T -. #(Z.of_nat (NBCE i))).
Definition FSTAT (s : state A) (i : nat) : F :=
  E_div_0 (RSQUARE s i *. (#T -. #(Z.of_nat (NBCE i)))) ((#1 -. RSQUARE s i) *. (#(Z.of_nat (NBCE i)) -. #1)).
Definition STD_PCT (s : state A) (i : nat) : F := E_div_0 (#100 *. STDERR s i) (MEAN_Y i).
Definition DW (s : state A) (i : nat) : F :=
  E_div_0 (total_to A (T p - 1) (fun j => let tmp := get (m_u s) i (j + 1) -. get (m_u s) i j in tmp *. tmp)) (#T *. get (m_vcu s) i i).
End Problem.
End Estim.
