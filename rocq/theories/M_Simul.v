(** Simulation of a model: api/simulation/k_sim_main.cpp, with the numerical solution of one equation,
    api/lec/l_newton.cpp and api/lec/l_secant.cpp. Over any arithmetic and any evaluation of the equations. *)
From Coq Require Import ZArith List Bool.
From Verif Require Import M_Base M_Names M_Bytes M_Exec M_Order M_Exo2endo M_Vars.
Import ListNotations.
Open Scope Z_scope.

(** Values of the variables by position in KSIM_DBV and position in its sample. Positions are not checked: those
    used are in range after linking. *)
Definition values (A : arith) : Type := Z -> Z -> F A.
Definition set {A} (s : values A) (v t : Z) (x : F A) : values A :=
  fun v' t' => if (v' =? v) && (t' =? t) then x else s v' t'.

(** The equations. [ev e s t]: L_exec of the linked CLEC of equation [e]; it does not change the variables.
    [dup]: CLEC::duplicated_endo. [own]: position of the variable with the name of the equation.
    [junk]: the indeterminate value of the variable x2 in [secant] (l_secant.cpp:135), read before being set
    (l_secant.cpp:85). *)
Record eqns (A : arith) := mkE {
  ev : Z -> values A -> Z -> F A;
  dup : Z -> bool;
  own : Z -> Z;
  junk : F A
}.
Arguments ev {A}. Arguments dup {A}. Arguments own {A}. Arguments junk {A}.

(** KSIM_EPS, KSIM_RELAX, KSIM_MAXIT (a negative number is as 0), KSIM_START, KSIM_NEWTON_EPS,
    KSIM_NEWTON_MAXIT. KSIM_NEWTON_STEP is overwritten before being used (l_newton.cpp:163, 229-232).
    [tiny]: the constant 1.0e-36 of IODE_IS_0 (constants.h:229). *)
Record params (A : arith) := mkP {
  eps : F A; relax : F A; maxit : nat; start : vinit; newton_eps : F A; newton_maxit : nat; tiny : F A
}.
Arguments eps {A}. Arguments relax {A}. Arguments maxit {A}. Arguments start {A}.
Arguments newton_eps {A}. Arguments newton_maxit {A}. Arguments tiny {A}.

Section Simul.
Variable A : arith.
Variable Q : eqns A.
Variable P : params A.
Notation val := (F A).
Notation state := (values A).

Definition one : val := ofZ A 1.
Definition zer : val := ofZ A 0.
Definition ratio (p q : Z) : val := dvd A (ofZ A p) (ofZ A q).
Definition le (x y : val) : bool := lt A x y || eq A x y.
(** std::min *)
Definition min (x y : val) : val := if lt A y x then y else x.

(** * Numerical solution of an equation *)

Section Zero.
(** Equation [e], period [t], variable [v] to be found. *)
Variables (e t v : Z).

(** l_newton.cpp:178-190 and l_secant.cpp:152-163: the equation gives 0, or the variable of its name. *)
Definition direct : bool := (v =? own Q e) || dup Q e.
Definition shift_of (s : state) : val := if direct then zer else s (own Q e) t.

(** l_newton.cpp:198-269; [x], [oldx], [shift], [tol] (eps of the code). *)
Fixpoint newton_loop (n : nat) (oldx shift tol x : val) (s : state) : state * val :=
  match n with
  | O => (set s v t oldx, na A)
  | S n' =>
    let s := set s v t x in
    let ax := abs A x in
    let fx := ev Q e s t in
    if negb (num A fx) then (set s v t oldx, na A)
    else
      let fx := sub A fx shift in
      if lt A (abs A fx) tol then (s, x)
      else
        let h := if lt A one ax then mul A (ratio 1 10000) ax else ratio 1 10000 in
        let s := set s v t (add A x h) in
        let fxh := ev Q e s t in
        if negb (num A fxh) then (set s v t oldx, na A)
        else
          let fxh := sub A fxh shift in
          if lt A (abs A (sub A fxh fx)) (ratio 1 100000000) then (set s v t oldx, na A)
          else
            let dx := dvd A (mul A h fx) (sub A fxh fx) in
            let x' := sub A x dx in
            let s := set s v t x' in
            let x' := if num A (ev Q e s t) then x' else sub A x (dvd A dx (ofZ A 4)) in
            newton_loop n' oldx shift tol x' s
  end.

(** l_newton.cpp:159-270 [newton_sub]. *)
Definition newton_sub (algo : bool) (s : state) : state * val :=
  let x := s v t in
  let shift := shift_of s in
  if negb (num A x) then (s, na A)
  else if negb direct && negb (num A shift) then (s, na A)
  else
    let ax := abs A (if direct then x else shift) in
    let tol := if algo && lt A one ax then mul A (newton_eps P) ax else newton_eps P in
    newton_loop (newton_maxit P) x shift tol x s.

(** l_newton.cpp:282-289 [newton]. *)
Definition newton (s : state) : state * val :=
  let r := newton_sub false s in
  if num A (snd r) then r else newton_sub true (fst r).

(** l_secant.cpp:43-55 [L_fx]: the variable is restored. *)
Definition L_fx (s : state) (shift x : val) : val := sub A (ev Q e (set s v t x) t) shift.

(** l_secant.cpp:80-104 [L_bracket]; LN_FACTOR = 1.6, LN_MAXIT = 20. *)
Fixpoint bracket_loop (n : nat) (f : val -> val) (x1 x2 f1 f2 : val) : option (val * val) :=
  match n with
  | O => None
  | S n' =>
    if lt A (mul A f1 f2) zer then Some (x1, x2)
    else if lt A (abs A f1) (abs A f2) then
      let x1 := add A x1 (mul A (ratio 16 10) (sub A x1 x2)) in bracket_loop n' f x1 x2 (f x1) f2
    else
      let x2 := add A x2 (mul A (ratio 16 10) (sub A x2 x1)) in bracket_loop n' f x1 x2 f1 (f x2)
  end.
Definition bracket (f : val -> val) (x1 : val) : option (val * val) :=
  if eq A x1 (junk Q) then None
  else
    let a := mul A x1 (ratio 5 10) in let b := mul A x1 (ratio 15 10) in
    bracket_loop 20 f a b (f a) (f b).

(** l_secant.cpp:189-209. *)
Definition small (tmp xr fxr : val) : bool :=
  lt A (abs A tmp) (mul A (ratio 1 1000000) (abs A xr)) || lt A (abs A fxr) (ratio 1 1000000).
Fixpoint secant_loop (n : nat) (f : val -> val) (xl xh fxl fxh dx : val) : val :=
  match n with
  | O => na A
  | S n' =>
    let xr := add A xl (dvd A (mul A dx fxl) (sub A fxl fxh)) in
    let fxr := f xr in
    if lt A fxr zer then
      if small (sub A xl xr) xr fxr then xr else secant_loop n' f xr xh fxr fxh (sub A xh xr)
    else
      if small (sub A xh xr) xr fxr then xr else secant_loop n' f xl xr fxl fxr (sub A xr xl)
  end.

(** l_secant.cpp:130-212 [secant]: the variables are left unchanged. *)
Definition secant (s : state) : val :=
  let x1 := s v t in
  let x1 := if num A x1 then x1 else ratio 9 10 in
  let shift := shift_of s in
  if negb direct && negb (num A shift) then na A
  else
    let x1 := abs A (if direct then x1 else shift) in
    let f := L_fx s shift in
    if lt A (abs A (f zer)) (ratio 1 1000000) then zer
    else
      match bracket f x1 with
      | None => na A
      | Some (x1, x2) =>
        let f1 := f x1 in let f2 := f x2 in
        if lt A f1 zer then secant_loop 20 f x1 x2 f1 f2 (sub A x2 x1)
        else secant_loop 20 f x2 x1 f2 f1 (sub A x1 x2)
      end.

(** l_newton.cpp:132-138 [zero]. *)
Definition zero (s : state) : state * val :=
  let r := newton s in if num A (snd r) then r else (fst r, secant (fst r)).

(** k_sim_main.cpp:734-766 [calculate_CLEC]; the message is left out. *)
Definition calculate (s : state) : state * val :=
  if dup Q e || negb (v =? own Q e) then zero s else (s, ev Q e s t).
End Zero.

(** * One period *)

(** [endo e]: KSIM_POSXK[e]; [pre], [inter], [post]: the three parts of KSIM_ORDER. *)
Variable endo : Z -> Z.
Variables pre inter post : list Z.
Variable t : Z.

(** k_wsvar.cpp:389-421 [KV_init_values_1]: the new value at [t] (see also M_Vars.kv_init). *)
Definition is_zero (x : val) : bool := is_0 A (tiny P) x.
Definition init_calc1 (r : Z -> val) : val := if (0 <? t) && num A (r (t - 1)) then r (t - 1) else one.
Definition init_calc2 (r : Z -> val) : val :=
  if (0 <? t) && num A (r (t - 1)) then
    if (1 <? t) && num A (r (t - 2)) then sub A (mul A (ofZ A 2) (r (t - 1))) (r (t - 2)) else r (t - 1)
  else one.
Definition init_value (r : Z -> val) (m : vinit) : val :=
  let x := r t in
  match m with
  | TM1 => if num A x && negb (is_zero x) then x else init_calc1 r
  | TM1_NA => if num A x then x else init_calc1 r
  | TM1_A => init_calc1 r
  | EXTRA => if num A x && negb (is_zero x) then x else init_calc2 r
  | EXTRA_NA => if num A x then x else init_calc2 r
  | EXTRA_A => init_calc2 r
  | ASIS => x
  end.

(** k_sim_main.cpp:128-142 [init_values]. *)
Definition init_values (s : state) : state :=
  fold_left (fun s e => set s (endo e) t (init_value (s (endo e)) (start P))) (pre ++ inter ++ post) s.

(** k_sim_main.cpp:153-158 [restore_XK]. *)
Fixpoint restore (es : list Z) (xk : list val) (s : state) : state :=
  match es, xk with
  | e :: es', x :: xk' => restore es' xk' (set s (endo e) t x)
  | _, _ => s
  end.

(** k_sim_main.cpp:168-178 [prolog] and 342-354 [epilog]. *)
Fixpoint solve_block (es : list Z) (s : state) : state :=
  match es with
  | [] => s
  | e :: es' => let '(s, x) := calculate e t (endo e) s in solve_block es' (set s (endo e) t x)
  end.

(** k_sim_main.cpp:215-219: the change of an endogenous variable, times KSIM_RELAX. *)
Definition change (r xk x : val) : val :=
  let d := sub A xk x in
  mul A (if negb (is_zero xk) then min (abs A (sub A one (dvd A x xk))) (abs A d) else abs A d) r.

(** State of the iterations: variables, KSIM_XK, KSIM_NORM; and whether the return code is 0. *)
Record iter := mkI { i_s : state; i_xk : list val; i_norm : val; i_ok : bool }.

(** k_sim_main.cpp:197-237 [sub_interdep_1]; [old]: the former values of KSIM_XK. *)
Fixpoint interdep_1 (r : val) (es : list Z) (old : list val) (s : state) (norm : val) : iter :=
  match es with
  | [] => mkI s old norm true
  | e :: es' =>
    let xk := s (endo e) t in
    let '(s, x) := calculate e t (endo e) s in
    if negb (num A x) then mkI s (xk :: tl old) norm false
    else
      let '(s, norm) :=
        if num A xk then
          let pd := change r xk x in
          (set s (endo e) t (add A (mul A r (sub A x xk)) xk), if lt A norm pd then pd else norm)
        else (set s (endo e) t x, ofZ A 10) in
      let i := interdep_1 r es' (tl old) s norm in
      mkI (i_s i) (xk :: i_xk i) (i_norm i) (i_ok i)
  end.

(** k_sim_main.cpp:255-306 [sub_interdep_2], in two stages. KSIM_XK1 is not read elsewhere. *)
Fixpoint stage_1 (es : list Z) (old : list val) (s : state) : state * list val * list val * bool :=
  match es with
  | [] => (s, old, [], true)
  | e :: es' =>
    let xk := s (endo e) t in
    let '(s, x) := calculate e t (endo e) s in
    if negb (num A x) then (s, xk :: tl old, [], false)
    else let '(s, xks, xs, ok) := stage_1 es' (tl old) s in (s, xk :: xks, x :: xs, ok)
  end.
Fixpoint stage_2 (r : val) (es : list Z) (xks xs : list val) (s : state) (norm : val) : state * val :=
  match es, xks, xs with
  | e :: es', xk :: xks', x :: xs' =>
    let '(s, norm) :=
      if num A xk then
        let pd := change r xk x in
        (set s (endo e) t (add A (mul A r x) (mul A (sub A one r) xk)), if lt A norm pd then pd else norm)
      else (set s (endo e) t x, ofZ A 10) in
    stage_2 r es' xks' xs' s norm
  | _, _, _ => (s, norm)
  end.
Definition interdep_2 (r : val) (old : list val) (s : state) (norm : val) : iter :=
  let '(s, xks, xs, ok) := stage_1 inter old s in
  if ok then let '(s, norm) := stage_2 r inter xks xs s zer in mkI s xks norm true
  else mkI s xks norm false.

(** k_sim_main.cpp:321-332 [interdep]. *)
Definition interdep (old : list val) (s : state) (norm : val) : iter :=
  let r := abs A (relax P) in
  if le zer (relax P) then interdep_1 r inter old s zer else interdep_2 r old s norm.

(** k_sim_main.cpp:371-418 [diverge]: the variables (changed by the numerical solutions) and KSIM_XK afterwards,
    and the equations of the list _DIVER; None when the function stops, the list being only deleted. *)
Fixpoint diverge (es : list Z) (old : list val) (s : state) (acc : list Z) : state * list val * option (list Z) :=
  match es with
  | [] => (s, old, Some acc)
  | e :: es' =>
    let xk := s (endo e) t in
    let '(s, x) := calculate e t (endo e) s in
    if negb (num A x) then (s, xk :: tl old, None)
    else
      let acc := if num A xk && lt A (eps P) (change (relax P) xk x) then acc ++ [e] else acc in
      let '(s, xks, l) := diverge es' (tl old) s acc in (s, xk :: xks, l)
  end.

(** Why the iterations stop. *)
Inductive stop := CONVERGED | BECOMES_NA | INTERRUPTED | TOO_LONG.

(** k_sim_main.cpp:452-480, the loop of [sub_simulate]. [n]: iterations still allowed; [it]: iterations done
    (KSIM_NITERS). [key it]: a key was hit during iteration [it] and the user confirms the end. *)
Variable key : nat -> bool.
Fixpoint iterate (n it : nat) (s : state) (xk : list val) (norm : val) : nat * iter * stop :=
  match n with
  | O => (it, mkI s xk norm true, TOO_LONG)
  | S n' =>
    let i := interdep xk s norm in
    if negb (i_ok i) then (S it, i, BECOMES_NA)
    else if key (S it) then (S it, i, INTERRUPTED)
    else if le (i_norm i) (eps P) then (S it, i, CONVERGED)
    else iterate n' (S it) (i_s i) (i_xk i) (i_norm i)
  end.

(** Result of a period: variables, KSIM_XK, KSIM_NORM, KSIM_NITERS[t], the reason; the return code is 0 for
    CONVERGED only. [diver]: the list _DIVER when it is rebuilt. *)
Record outcome := mkR { r_s : state; r_xk : list val; r_norm : val; r_iters : nat; r_stop : stop; diver : option (list Z) }.

(** k_sim_main.cpp:439-507 [sub_simulate]. *)
Definition sub_simulate (s : state) (xk : list val) (norm : val) : outcome :=
  let s := solve_block pre (init_values s) in
  let '(it, i, why) := iterate (maxit P) 0 s xk norm in
  match why with
  | BECOMES_NA => mkR (i_s i) (i_xk i) (i_norm i) it why None
  | INTERRUPTED => mkR (restore inter (i_xk i) (i_s i)) (i_xk i) (i_norm i) it why None
  | CONVERGED =>
    mkR (solve_block post (restore inter (i_xk i) (i_s i))) (i_xk i) (i_norm i) it why None
  | TOO_LONG =>
    let '(s, xks, l) := diverge inter (i_xk i) (restore inter (i_xk i) (i_s i)) [] in
    mkR s xks (i_norm i) it why l
  end.
End Simul.

Arguments i_s {A}. Arguments i_xk {A}. Arguments i_norm {A}. Arguments i_ok {A}. Arguments mkI {A}.
Arguments r_s {A}. Arguments r_xk {A}. Arguments r_norm {A}. Arguments r_iters {A}. Arguments r_stop {A}.
Arguments diver {A}. Arguments mkR {A}.

(** * The whole simulation *)

Section Periods.
Variable A : arith.
Variable Q : eqns A.
Variable P : params A.
Variable m : model.
Variable o : ordering.

(** KSIM_POSXK[e] and the parts of KSIM_ORDER. *)
Definition endo (e : Z) : Z := nth (Z.to_nat e) (posxk m) (-1).
Definition part (from n : Z) : list Z := firstn (Z.to_nat n) (skipn (Z.to_nat from) (o_order o)).
Definition simulate_period (key : nat -> bool) (t : Z) (s : values A) (xk : list (F A)) (norm : F A) : outcome A :=
  sub_simulate A Q P endo (part 0 (o_pre o)) (part (o_pre o) (o_inter o)) (part (o_pre o + o_inter o) (o_post o)) t key s xk norm.

(** k_sim_main.cpp:675-690: the values of the exchanged variables [exos] at [t] are copied to all later periods of
    the sample of the variables, of [nb] periods. *)
Definition copy_forward (nb t : Z) (exos : list Z) (s : values A) : values A :=
  fold_left (fun (s : values A) x => fun v p => if (v =? x) && (t <? p) && (p <? nb) then s x t else s v p) exos s.

(** k_sim_main.cpp:665-691: [n] periods from [t] on; [keys t]: see [sub_simulate]. *)
Fixpoint periods (nb : Z) (exos : list Z) (keys : Z -> nat -> bool) (n : nat) (t : Z) (s : values A) (xk : list (F A)) (norm : F A)
  : values A * bool :=
  match n with
  | O => (s, true)
  | S n' =>
    let r := simulate_period (keys t) t s xk norm in
    match r_stop r with
    | CONVERGED => periods nb exos keys n' (t + 1) (copy_forward nb t exos (r_s r)) (r_xk r) (r_norm r)
    | _ => (r_s r, false)
    end
  end.
(** k_sim_main.cpp:662-663: KSIM_XK is allocated, zero. [at_]: position of the first period (565-574). *)
Definition simulate (nb : Z) (exos : list Z) (keys : Z -> nat -> bool) (at_ : Z) (n : nat) (s : values A) (norm : F A) : values A * bool :=
  periods nb exos keys n at_ s (map (fun _ => ofZ A 0) (part (o_pre o) (o_inter o))) norm.
End Periods.

(** * From the equations to the results *)

(** k_sim_main.cpp:539-696 [simulate]: equations by name with the names of their CLEC, exchanges, ordering, then the
    periods. Result: the variables and whether the return code is 0. [at_], [bt]: number of periods before and
    after the sample of the simulation in that of the variables, of [nb] periods. *)
Section Run.
Variable A : arith.
Variable evalue : Z -> values A -> Z -> F A.
Variable duplicated : Z -> bool.
Variable garbage : F A.
Variable P : params A.

Definition equations_of (vars : list str) (eqs : list (str * list str)) : eqns A :=
  mkE A evalue duplicated (fun e => pos_of vars (nth (Z.to_nat e) (map fst eqs) [])) garbage.
Definition run (vars scl : list str) (eqs : list (str * list str)) (l : list (str * str)) (given : list str)
  (sort : sort_option) (passes : nat) (nb at_ bt : Z) (n : nat) (keys : Z -> nat -> bool) (s : values A) (norm : F A)
  : res (values A * bool) :=
  match eqs with
  | [] => Ok (s, false)
  | _ =>
    if (bt <? 0) || (at_ <? 0) then Ok (s, false)
    else
      do m <- link_model vars scl eqs;
      match m with
      | None => Ok (s, false)
      | Some m =>
        do m <- exchanges vars (map fst eqs) m l;
        match m with
        | None => Ok (s, false)
        | Some m =>
          do o <- order m (map fst eqs) given sort passes;
          Ok (simulate A (equations_of vars eqs) P m o nb (map (fun c => pos_of vars (snd c)) l) keys at_ n s norm)
        end
      end
  end.
End Run.
