(** Execution of compiled LEC byte code: linking to a sample (api/lec/l_link.cpp) and the stack machine
    (api/lec/l_exec.cpp, l_exec_fns.cpp, l_exec_ops.cpp, l_exec_tfn.cpp, l_exec_mtfn.cpp, l_exec_val.cpp). *)
From Coq Require Import ZArith Ascii String List Bool.
From Verif Require Import M_Base M_Time M_Names M_Lex M_Compile M_Bytes.
Import ListNotations.
Open Scope Z_scope.

(** C double arithmetic and libm, as parameters: every theorem holds for any implementation of them.
    [num x] is IODE_IS_A_NUMBER(x) (x >= -1e37, false on a NaN), [na] is IODE_NAN (-2e37).
    [trunc x] is the cast (int) x, None when the value does not fit (undefined behaviour).
    [lib1 f] covers sin, cos, acos, asin, tan, atan, tanh, sinh, cosh and gamma; the random functions are
    functions of their arguments here ([rnd], [grandom]); [hp] is HP_test and HP_calc (l_hodrick.cpp). *)
Record arith := {
  F : Type; na : F; num : F -> bool; num_na : num na = false;
  add : F -> F -> F; sub : F -> F -> F; mul : F -> F -> F; dvd : F -> F -> F; neg : F -> F;
  lt : F -> F -> bool; eq : F -> F -> bool; is_nan : F -> bool;
  ofZ : Z -> F; real : list Z -> F; trunc : F -> option Z;
  half : F; e8 : F; e15 : F; e30 : F; pi : F; euler : F; euro : F;
  max_exp : F; min_exp : F; max_double : F; min_double : F;
  abs : F -> F; floor : F -> F; log : F -> F; exp : F -> F; sqrt : F -> F; pow : F -> F -> F;
  lib1 : fnr -> F -> F; rnd : fnr -> F -> F; grandom : F -> F -> F;
  hp : bool -> F -> list F -> Z -> option F
}.

(** Objects seen by a formula: [L_findvar]/[L_getvar], [L_findscl]/[L_getscl] and the sample (k_lec.cpp:16-110).
    Simplified: the search by name and the access by position are one function of the name. *)
Record env (A : arith) := {
  var_at : str -> option (Z -> F A);      (* value by position in the sample *)
  scalar : str -> option (F A);
  smp : sample
}.
Arguments var_at {A}. Arguments scalar {A}. Arguments smp {A}.

(** The C type int. *)
Definition i32 (z : Z) : res Z := if (-2147483648 <=? z) && (z <=? 2147483647) then Ok z else UB.

(** * Linking to a sample *)

Definition put (code : list Z) (j : Z) (b : list Z) : list Z :=
  firstn (Z.to_nat j) code ++ b ++ skipn (Z.to_nat j + length b) code.

(** l_link.cpp:61-173 [L_link_sample_expr] from position [j] to [e] of the buffer. Only the fields [ref]
    (l_value.h:197-202) and [pos] (l_value.h:286-289), both short, are changed. Multi-time functions are
    skipped, arguments included. [fuel] bounds the number of elements: no fuel (a jump backwards) is UB. *)
Fixpoint link (fuel : nat) (start : period) (code : list Z) (j e : Z) : res (list Z) :=
  match fuel with
  | O => UB
  | S n =>
    if e <=? j then Ok code
    else
      do i <- fetch (skipn (Z.to_nat j) code);
      let '(i, size) := (i : instr * Z) in
      match i with
      | I_VAR _ lag _ p =>
        do r <- (if step p =? 0 then Ok lag else do d <- difference p start; Ok (to_short (lag + d)));
        link n start (put code (j + 7) (le 2 r)) (j + size) e
      | I_PERIOD p _ =>
        do d <- difference p start; link n start (put code (j + 25) (le 2 (to_short d))) (j + size) e
      | I_TFN _ _ len =>
        do code' <- link n start code (j + size) (j + size + len);
        if len <? 0 then UB else link n start code' (j + size + len) e
      | I_MTFN _ _ _ len => if len <? 0 then UB else link n start code (j + size + len) e
      | I_INVALID => Throw
      | _ => link n start code (j + size) e
      end
  end.

(** l_link.cpp:183-189 [CLEC::link_sample]: the length is passed as a short. *)
Definition link_sample (start : period) (code : list Z) : res (list Z) :=
  link (S (length code)) start code 0 (to_short (Z.of_nat (length code))).

(** l_link.cpp:27-46 [CLEC::link_names]. *)
Definition link_names {A} (E : env A) (names : list str) : bool :=
  forallb (fun n => if is_coefficient n then match scalar E n with Some _ => true | None => false end
                    else match var_at E n with Some _ => true | None => false end) names.

Section Machine.
Context (A : arith) (E : env A) (names : list str) (curt : Z).
Notation F := (F A). Notation na := (na A). Notation num := (num A).
Notation "x +. y" := (add A x y) (at level 50, left associativity).
Notation "x -. y" := (sub A x y) (at level 50, left associativity).
Notation "x *. y" := (mul A x y) (at level 40, left associativity).
Notation "x /. y" := (dvd A x y) (at level 40, left associativity).
Notation "x <. y" := (lt A x y) (at level 70).
Notation "x =. y" := (eq A x y) (at level 70).
Notation "# z" := (ofZ A z) (at level 1).

Definition le_f (x y : F) : bool := (x <. y) || (x =. y).
Definition of_bool (b : bool) : F := if b then #1 else #0.
Definition cast (x : F) : res Z := match trunc A x with Some z => Ok z | None => UB end.

(** * Operators: l_exec_ops.cpp:8-56 *)
Definition L_divide (a b : F) : F := if negb (num b) || negb (num a) || (b =. #0) then na else a /. b.
Definition L_exp (a b : F) : res F :=
  let fix_nan x := if is_nan A x then na else x in
  if a <. #0 then
    do ib <- cast b;
    if b =. #ib then Ok (fix_nan (pow A a b))
    else
      let c := #1 /. b in
      do ic <- cast c;
      if negb (abs A (c -. #ic) <. e8 A) then Ok na
      else if negb (Z.rem ic 2 =? 1) then Ok na
      else Ok (fix_nan (neg A (pow A (neg A a) b)))
  else Ok (fix_nan (pow A a b)).
Definition run_op (o : opr) (a b : F) : res F :=
  match o with
  | Oor => Ok (of_bool (negb (a =. #0) || negb (b =. #0)))
  | Oand => Ok (of_bool (negb (a =. #0) && negb (b =. #0)))
  | Oge => Ok (of_bool (le_f b a)) | Ogt => Ok (of_bool (b <. a))
  | Ole => Ok (of_bool (le_f a b)) | Olt => Ok (of_bool (a <. b))
  | Oeq => Ok (of_bool (a =. b)) | One => Ok (of_bool (negb (a =. b)))
  | Oplus => Ok (a +. b) | Ominus => Ok (a -. b) | Otimes => Ok (a *. b)
  | Odivide => Ok (L_divide a b) | Oexp => L_exp a b
  end.

(** * Functions: l_exec_fns.cpp. The stack is a list whose head is [stack.back()]. *)
Definition stack := list F.
Definition pop (s : stack) : res (F * stack) := match s with v :: s' => Ok (v, s') | [] => UB end.
(** The [n] values on the top, top first. *)
Fixpoint popn (n : nat) (s : stack) : res (list F * stack) :=
  match n with
  | O => Ok ([], s)
  | S n' => do p <- pop s; do q <- popn n' (snd p); Ok (fst p :: fst q, snd q)
  end.

(** l_exec_fns.cpp:12-22 [L_logn]. *)
Definition L_logn (v : F) : F :=
  if negb (num v) || le_f v #0 then na
  else let x := log A v in if is_nan A x then na else x.
(** l_exec_fns.cpp:299-315 [L_lmean], values from the top of the stack; sum and count. *)
Definition sum_num (l : list F) : F * Z :=
  fold_left (fun s v => if num v then (fst s +. v, snd s + 1) else s) l (#0, 0).
Definition mean_num (l : list F) : F := let '(s, n) := sum_num l in if 0 <? n then s /. #n else na.

(** The body of each function on its arguments taken from the stack, top first
    (l_exec_fns.cpp:26-490). *)
Definition fn_body (f : fnr) (args : list F) : res F :=
  match f, args with
  | Fuminus, [x] => Ok (neg A x)
  | Fuplus, [x] => Ok x
  | Flog, [x] => Ok (L_logn x)
  | Flog, [x; y] => Ok (L_divide (L_logn y) (L_logn x))
  | Fln, [x] => Ok (L_logn x)
  | Fnot, [x] => Ok (of_bool (abs A x <. e15 A))
  | Fexpn, [n] =>
    if le_f (max_exp A) n || le_f n (min_exp A) then Ok na
    else let r := exp A n in
         if le_f (max_double A) r || le_f r (min_double A) then Ok na else Ok r
  | Fexpn, [n; x] => L_exp x n
  | Fmax, x :: _ => Ok (fold_left (fun m v => if m <. v then v else m) args x)
  | Fmin, x :: _ => Ok (fold_left (fun m v => if v <. m then v else m) args x)
  | Fabs, [x] => Ok (abs A x)
  | Fsqrt, [x] => Ok (if x <. #0 then na else sqrt A x)
  | Fint, [x] => Ok (floor A (half A +. x))
  | Frad, [x] => Ok (x *. pi A /. #180)
  | Fif, [cond; arg2; arg1] => Ok (if negb (num cond) || (abs A cond <. e15 A) then arg2 else arg1)
  | Flsum, _ => Ok (fold_left (fun s v => s +. v) args #0)
  | Flmean, _ => Ok (mean_num args)
  | Fisan, [x] => Ok (of_bool (num x))
  | Flprod, _ => Ok (fold_left (fun p v => if num v then p *. v else p) args #1)
  | Fsign, [x] => Ok (if x <. #0 then # (-1) else #1)
  | Flstderr, _ =>
    let m := mean_num args in
    let '(s, n) := fold_left (fun s v => if num v then (fst s +. (v -. m) *. (v -. m), snd s + 1) else s) args (#0, 0) in
    Ok (if 1 <? n then sqrt A (s /. #(n - 1)) else na)
  | Ffloor, [x] => Ok (floor A x)
  | Fceil, [x] => Ok (#1 +. floor A x)
  | Fround, [x] => let s := pow A #10 #0 in Ok (floor A (half A +. x *. s) /. s)
  | Fround, [n; x] => do k <- cast n; let s := pow A #10 #k in Ok (floor A (half A +. x *. s) /. s)
  | Frandom, [x] => Ok (if x =. #0 then #0 else rnd A Frandom x)
  | Furandom, [x] => Ok (if x =. #0 then #0 else rnd A Furandom x)
  | Fgrandom, [sd; mean] => Ok (grandom A mean sd)
  | Fdiv0, [a; b] =>
    Ok (if negb (num b) || negb (num a) then na else if b =. #0 then #0 else a /. b)
  | (Fsin | Fcos | Facos | Fasin | Ftan | Fatan | Ftanh | Fsinh | Fcosh | Fgamma), [x] => Ok (lib1 A f x)
  | _, _ => UB
  end.
(** Functions that take one argument whatever [nb_args] pop one value; the others pop [nb_args] values.
    [L_lcount] pops nothing. *)
Definition accept_na (f : fnr) : bool :=
  match f with Fif | Fisan | Flmean | Flstderr | Flcount => true | _ => false end.
Definition tainted (s : stack) : bool := existsb (fun v => negb (num v)) s.
(** Number of values popped by the body. *)
Definition arity (f : fnr) (nb : Z) : nat :=
  match f with
  | Flog | Fexpn | Fround => if nb =? 2 then 2%nat else 1%nat
  | Fmax | Fmin | Flsum | Flmean | Flprod | Flstderr => Z.to_nat nb
  | Fif => 3%nat | Fgrandom | Fdiv0 => 2%nat
  | _ => 1%nat
  end.
(** l_exec_fns.h:233-253 [LEC_FN::execute]; the search for a NA covers the whole stack. *)
Definition run_fn (f : fnr) (nb : Z) (s : stack) : res stack :=
  if negb (accept_na f) && tainted s then
    do p <- popn (Z.to_nat nb) s; Ok (na :: snd p)
  else
    match f with
    | Flcount => Ok (# nb :: s)
    | _ => do p <- popn (arity f nb) s; do v <- fn_body f (fst p); Ok (v :: snd p)
    end.

(** * Time functions: l_exec_tfn.cpp *)
(** l_exec.cpp:236-244 [L_intlag]. *)
Definition intlag (x : F) : res Z := if x <. #0 then cast (neg A (half A) +. x) else cast (half A +. x).
(** l_exec_tfn.cpp:22-50 [L_extract_time_range]. *)
Definition time_range (t : Z) (s : stack) (nargs : Z) : res (Z * Z * stack) :=
  if nargs =? 1 then Ok (0, t, s)
  else
    do p <- (if nargs =? 3 then do p <- pop s; do to <- intlag (fst p); Ok (to, snd p) else Ok (t, s));
    let '(to, s) := (p : Z * stack) in
    do q <- pop s;
    do from <- intlag (fst q);
    Ok (if to <? from then (to, from, snd q) else (from, to, snd q)).
(** Optional lag argument, l_exec_tfn.cpp:68-75 and following. *)
Definition lag_arg (nb : Z) (s : stack) : res (Z * stack) :=
  if nb =? 2 then do p <- pop s; do k <- intlag (fst p); Ok (k, snd p) else Ok (1, s).

(** Loop over periods [js] with an exit on the first value that is no number (None). *)
Fixpoint loop {S} (sub : Z -> res F) (js : list Z) (acc : S) (f : S -> F -> S) : res (option S) :=
  match js with
  | [] => Ok (Some acc)
  | j :: js' => do v <- sub j; if num v then loop sub js' (f acc v) f else Ok None
  end.
Definition or_na (r : option F) : F := match r with Some v => v | None => na end.
(** for(j = from; j <= to; j++): the counter reaches to + 1. *)
Definition window (from to : Z) : res (list Z) :=
  do _ <- i32 (to + 1); Ok (seqZ from (Z.to_nat (to - from + 1))).
(** v1 at t and v2 at t - lag, None when one is no number. *)
Definition two_values (sub : Z -> res F) (t lag : Z) : res (option (F * F)) :=
  do v1 <- sub t;
  if negb (num v1) then Ok None
  else do u <- i32 (t - lag); do v2 <- sub u; Ok (if num v2 then Some (v1, v2) else None).
Definition L_mean_of (sub : Z -> res F) (from to : Z) : res F :=
  do js <- window from to;
  do nb <- i32 (1 + to - from);
  do s <- loop sub js #0 (fun s v => s +. v);
  Ok (if num (or_na s) then or_na s /. #nb else na).

Fixpoint last_num (sub : Z -> res F) (js : list Z) : res F :=
  match js with
  | [] => Ok na
  | j :: js' => do v <- sub j; if num v then Ok v else last_num sub js'
  end.

(** l_exec_tfn.cpp:64-421: the value pushed and the rest of the stack. *)
Definition tfn_run (f : tfnr) (nb : Z) (sub : Z -> res F) (t : Z) (s : stack) : res stack :=
  match f with
  | Flag => do p <- lag_arg nb s; do u <- i32 (t - fst p); do v <- sub u; Ok (v :: snd p)
  | Fdiff | Frapp | Fdln | Fgrt =>
    do p <- lag_arg nb s;
    do w <- two_values sub t (fst p);
    Ok (match w with
        | None => na
        | Some (v1, v2) =>
          match f with
          | Fdiff => v1 -. v2
          | Frapp => L_divide v1 v2
          | Fdln => L_logn (L_divide v1 v2)
          | _ => let q := L_divide v1 v2 in if num q then (q -. #1) *. #100 else na
          end
        end :: snd p)
  | Fmavg =>
    do p <- lag_arg nb s;
    let lag := if fst p <? 1 then 1 else fst p in
    do _ <- i32 (t - lag + 1);
    do r <- loop sub (map (fun j => t - j) (seqZ 0 (Z.to_nat lag))) #0 (fun s v => s +. v);
    Ok (match r with Some v => v /. #lag | None => na end :: snd p)
  | Fdlag => UB                                              (* null pointer in the table *)
  | Fvmax | Fvmin | Fsum | Fprod | Fmean | Fstderr | Flastobs =>
    do r <- time_range t s nb;
    let '(from, to, s') := (r : Z * Z * stack) in
    do v <-
      match f with
      | Fvmax | Fvmin =>
        do v0 <- sub from;
        if negb (num v0) then Ok na
        else
          do js <- window (from + 1) to;
          do r <- loop sub js v0
                    (fun m v => if (match f with Fvmax => m <. v | _ => v <. m end) then v else m);
          Ok (or_na r)
      | Fsum => do js <- window from to; do r <- loop sub js #0 (fun s v => s +. v); Ok (or_na r)
      | Fprod => do js <- window from to; do r <- loop sub js #1 (fun s v => s *. v); Ok (or_na r)
      | Fmean => L_mean_of sub from to
      | Fstderr =>
        do js <- window from to;
        do r <- loop sub js (#0, #0) (fun s v => (fst s +. v, snd s +. v *. v));
        match r with
        | None => Ok na
        | Some (sum, sum2) =>
          do nb <- i32 (1 + to - from);
          let x := sum2 -. sum *. sum /. #nb in
          Ok (if (nb <=? 1) || (x <. #0) then na else sqrt A (x /. #(nb - 1)))
        end
      | _ => do _ <- i32 (from - 1); last_num sub (rev (seqZ from (Z.to_nat (to - from + 1))))
      end;
    Ok (v :: s')
  end.

(** * Functions of several series: l_exec_mtfn.cpp *)
Fixpoint loop2 {S} (sub1 sub2 : Z -> res F) (js : list Z) (acc : S) (f : S -> F -> F -> S) : res (option S) :=
  match js with
  | [] => Ok (Some acc)
  | j :: js' =>
    do x <- sub1 j;
    if negb (num x) then Ok None
    else do y <- sub2 j; if num y then loop2 sub1 sub2 js' (f acc x y) f else Ok None
  end.
(** l_exec_mtfn.cpp:27-63 [L_calccorr]. *)
Definition calc_corr (s1 s2 : Z -> res F) (from to : Z) : res F :=
  do mx <- L_mean_of s1 from to;
  if negb (num mx) then Ok na else
  do my <- L_mean_of s2 from to;
  if negb (num my) then Ok na else
  do js <- window from to;
  do r <- loop2 s1 s2 js (#0, #0, #0)
    (fun s x y => (fst (fst s) +. (x -. mx) *. (x -. mx), snd (fst s) +. (y -. my) *. (y -. my),
                   snd s +. (x -. mx) *. (y -. my)));
  Ok (match r with
      | None => na
      | Some (sxx, syy, sxy) => if le_f (sxx *. syy) #0 then na else sxy /. sqrt A (sxx *. syy)
      end).
(** l_exec_mtfn.cpp:106-143 [L_calccovar]. *)
Definition calc_covar (s1 s2 : Z -> res F) (from to : Z) (orig : bool) : res F :=
  do nb <- i32 (1 + to - from);
  if nb =? 0 then Ok na else
  do mx <- L_mean_of s1 from to;
  if negb (num mx) then Ok na else
  do my <- L_mean_of s2 from to;
  if negb (num my) then Ok na else
  do js <- window from to;
  do r <- loop2 s1 s2 js #0
    (fun s x y => if orig then s +. x *. y else s +. (x -. mx) *. (y -. my));
  Ok (match r with None => na | Some sxy => sxy /. #nb end).

Fixpoint find_near (x : F) (sub : Z -> res F) (js : list Z) : res F :=
  match js with
  | [] => Ok na
  | j :: js' =>
    do y <- sub j;
    if negb (num y) then Ok na
    else if abs A (x -. y) <. e30 A then Ok (# j) else find_near x sub js'
  end.

(** l_exec_mtfn.cpp:287-... [L_acf]. *)
Definition calc_acf (s1 s2 : Z -> res F) (from to t : Z) : res F :=
  do nb <- i32 (1 + to - from);
  if nb =? 0 then Ok na else
  do x <- s1 t;
  if negb (num x) then Ok na else
  do k <- cast x;
  if (k <? 0) || (Z.quot nb 4 <? k) then Ok na else
  do m <- L_mean_of s2 from to;
  if negb (num m) then Ok na else
  do js <- window from (to - k);
  do r <- loop2 s2 (fun j => s2 (j + k)) js #0 (fun s x y => s +. (x -. m) *. (y -. m));
  match r with
  | None => Ok na
  | Some sxy =>
    do js <- window from to;
    do r0 <- loop s2 js #0 (fun s x => s +. (x -. m) *. (x -. m));
    Ok (match r0 with None => na | Some s0 => sxy /. s0 end)
  end.

(** Search of a value to keep; at the end of the loop the counter is [stop]. *)
Fixpoint search (sub : Z -> res F) (keep : F -> bool) (js : list Z) (stop : Z) (last : F) : res (Z * F) :=
  match js with
  | [] => Ok (stop, last)
  | j :: js' => do v <- sub j; if keep v then Ok (j, v) else search sub keep js' stop v
  end.
Definition upto (t nb : Z) : list Z := seqZ (t + 1) (Z.to_nat (nb - (t + 1))).
Definition downto (t : Z) : list Z := rev (seqZ 0 (Z.to_nat t)).
(** l_exec_mtfn.cpp:372-432 [L_calcvals]: (vt0, vy0, vt1, vy1). *)
Definition calcvals (sub : Z -> res F) (t : Z) (notnul : bool) : res (Z * F * (Z * F)) :=
  let nb := s_nb (smp E) in
  let keep v := num v && (negb notnul || (e15 A <. abs A v)) in
  do p1 <- search sub keep (upto t nb) (Z.max (t + 1) nb) na;
  do p0 <- search sub keep (downto t) (Z.min (t - 1) (-1)) na;
  let '(t1, y1) := (p1 : Z * F) in
  let '(t0, y0) := (p0 : Z * F) in
  if negb (num y0) && negb (num y1) then Ok ((t0, y0), (t1, y1))
  else if num y0 && num y1 then Ok ((t0, y0), (t1, y1))
  else if negb (num y1) then
    do q <- search sub keep (downto t0) (Z.min (t0 - 1) (-1)) na; Ok (q, (t0, y0))
  else
    do q <- search sub num (upto t1 nb) (Z.max (t1 + 1) nb) na; Ok ((t1, y1), q).

(** l_exec_mtfn.cpp [L_interpol], [L_app], [L_dapp]. *)
Definition calc_interpol (s1 : Z -> res F) (t : Z) : res F :=
  do x <- s1 t;
  if num x then Ok x else
  do p <- calcvals s1 t false;
  let '((t0, y0), (t1, y1)) := (p : Z * F * (Z * F)) in
  Ok (if negb (num y0) && negb (num y1) then na
      else if t0 <? 0 then y1
      else if s_nb (smp E) <=? t1 then y0
      else (y0 *. #t1 -. y1 *. #t0) /. #(t1 - t0) +. #t *. (y1 -. y0) /. #(t1 - t0)).
Definition near (s2 : Z -> res F) (ok : bool) (t : Z) : res F := if ok then s2 t else Ok na.
Definition calc_app (s1 s2 : Z -> res F) (t : Z) : res F :=
  do x <- s1 t;
  if num x then Ok x else
  do p <- calcvals s1 t true;
  let '((t0, y0), (t1, y1)) := (p : Z * F * (Z * F)) in
  if negb (num y0) && negb (num y1) then Ok na else
  do ayt <- s2 t;
  if negb (num ayt) then Ok na else
  do a0 <- near s2 (0 <=? t0) t0;
  do a1 <- near s2 (t1 <? s_nb (smp E)) t1;
  let ratio (y a : F) := if abs A a <. e15 A then na else ayt *. (y /. a) in
  Ok (if num a0 && num a1 then
        if (t0 <? t) && (t <? t1) then
          if abs A (y0 *. a1) <. e15 A then na
          else
            let d := (y1 *. a0) /. (y0 *. a1) in
            if d <. #0 then na
            else
              let d := pow A d (#1 /. #(t1 - t0)) in
              if is_nan A d then na else y0 *. (ayt /. a0 *. pow A d #(t - t0))
        else if t0 <? t then ratio y1 a1 else ratio y0 a0
      else if num a0 then ratio y0 a0
      else if num a1 then ratio y1 a1
      else na).
Definition calc_dapp (s1 s2 : Z -> res F) (t : Z) : res F :=
  do x <- s1 t;
  if num x then Ok x else
  do p <- calcvals s1 t false;
  let '((t0, y0), (t1, y1)) := (p : Z * F * (Z * F)) in
  if negb (num y0) && negb (num y1) then Ok na else
  do ayt <- s2 t;
  if negb (num ayt) then Ok na else
  do a0 <- near s2 (0 <=? t0) t0;
  do a1 <- near s2 (t1 <? s_nb (smp E)) t1;
  Ok (if num a0 && num a1 then
        if (t0 <? t) && (t <? t1) then
          let d := (a1 -. a0 +. y0 -. y1) /. #(t1 - t0) in
          ayt +. y0 -. a0 -. #(t - t0) *. d
        else if t0 <? t then ayt +. (y1 -. a1) else ayt +. (y0 -. a0)
      else if num a0 then ayt +. (y0 -. a0)
      else if num a1 then ayt +. (y1 -. a1)
      else na).
(** l_exec_mtfn.cpp:659-702 [L_hpall]. *)
Definition calc_hp (std : bool) (s1 s2 : Z -> res F) (from to t : Z) : res F :=
  do v <- s1 t;
  if negb (num v) then Ok na
  else if (t <? from) || (to <? t) then Ok na
  else
    do nb <- i32 (to - from + 1);
    if nb <? 5 then Ok na
    else
      do js <- window from to;
      do l <- mapM s2 js;
      Ok (or_na (hp A std v l (t - from))).

(** l_exec_mtfn.h:178-191 [LEC_MTFN::execute] and the functions. *)
Definition mtfn_run (f : mtfnr) (nb : Z) (s1 s2 : Z -> res F) (t : Z) (s : stack) : res stack :=
  do r <- match f with Finterpol | Fapp => Ok (-1, -1, s) | _ => time_range t s (nb - 1) end;
  let '(from, to, s') := (r : Z * Z * stack) in
  do v <-
    match f with
    | Fcorr => calc_corr s1 s2 from to
    | Fcovar => calc_covar s1 s2 from to false
    | Fcovar0 => calc_covar s1 s2 from to true
    | Fvariance => calc_covar s1 s1 from to false
    | Fstddev =>
      do v <- calc_covar s1 s1 from to false;
      Ok (if negb (num v) || (v <. #0) then na else sqrt A v)
    | Findex =>
      do nb <- i32 (1 + to - from);
      if nb =? 0 then Ok na
      else do x <- s1 t; if negb (num x) then Ok na else do js <- window from to; find_near x s2 js
    | Facf => calc_acf s1 s2 from to t
    | Finterpol => calc_interpol s1 t
    | Fapp => calc_app s1 s2 t
    | Fdapp => calc_dapp s1 s2 t
    | Fhp => calc_hp false s1 s2 from to t
    | Fhpstd => calc_hp true s1 s2 from to t
    end;
  Ok (v :: s').

(** * The machine *)
(** l_exec_val.cpp. *)
Definition val_run (v : valr) (t : Z) : F :=
  match v with
  | Vpi => pi A | Ve => euler A | Vtime => # t | Vi => #t -. #curt | Veuro => euro A
  end.
(** l_value.h:204-220 [LEC_VAR::add_to_stack]. *)
Definition read_var (vals : Z -> F) (ref : Z) (p : period) (t : Z) : F :=
  let i := if year p =? 0 then ref + t else ref in
  if (0 <=? i) && (i <? s_nb (smp E)) then vals i else na.
(** A short in the buffer. *)
Definition short_at (code : list Z) (j : Z) : res Z :=
  if j <? 0 then UB else do b <- take 2 (skipn (Z.to_nat j) code); Ok (signed_le b).
Definition name_at (pos : Z) : option str := if pos <? 0 then None else nth_error names (Z.to_nat pos).

(** l_exec.cpp:107-215 [L_exec_sub] from position [j] to [e] of the buffer. No fuel (a jump backwards) and a
    read outside the buffer are UB. *)
Fixpoint exec (fuel : nat) (code : list Z) (j e t : Z) (s : stack) : res F :=
  match fuel with
  | O => UB
  | S n =>
    if e <=? j then match s with v :: _ => Ok v | [] => UB end
    else if j <? 0 then UB
    else
      do i <- fetch (skipn (Z.to_nat j) code);
      let '(i, size) := (i : instr * Z) in
      let next := j + size in
      match i with
      | I_LONG z => exec n code next e t (# z :: s)
      | I_REAL b => exec n code next e t (real A b :: s)
      | I_COEF pos =>
        match name_at pos with
        | None => UB
        | Some nm =>
          match scalar E nm with
          | None => UB
          | Some v => if num v then exec n code next e t (v :: s) else Ok na
          end
        end
      | I_PERIOD _ pos => exec n code next e t (# pos :: s)
      | I_VAR pos _ ref p =>
        match name_at pos with
        | None => UB
        | Some nm =>
          match var_at E nm with
          | None => UB
          | Some vals => exec n code next e t (read_var vals ref p t :: s)
          end
        end
      | I_FN f nb => do s' <- run_fn f nb s; exec n code next e t s'
      | I_OP o =>
        do p <- pop s; do q <- pop (snd p);
        do v <- (if negb (num (fst q)) || negb (num (fst p)) then Ok na else run_op o (fst q) (fst p));
        exec n code next e t (v :: snd q)
      | I_TFN f nb len =>
        if len <? 0 then UB
        else
          do s' <- tfn_run f nb (fun u => exec n code next (next + len) u []) t s;
          exec n code (next + len) e t s'
      | I_VAL v => exec n code next e t (val_run v t :: s)
      | I_MTFN f nb nv len =>
        if len <? 0 then UB
        else
          do l1 <- short_at code next;
          do l2 <- (if min_args (MTFN f) =? 2 then short_at code (next + 2 + l1) else Ok 0);
          do s' <- mtfn_run f nb (fun u => exec n code (next + 2) (next + 2 + l1) u [])
                     (fun u => exec n code (next + 4 + l1) (next + 4 + l1 + l2) u []) t s;
          exec n code (next + len) e t s'
      | I_OTHER | I_INVALID => Ok na
      end
  end.

(** l_exec.cpp:228-262 [L_exec], without the floating point signal handler. *)
Definition L_exec (code : list Z) : res F :=
  match code with
  | [] => Ok na
  | _ => exec (S (length code)) code 0 (Z.of_nat (length code)) curt []
  end.
End Machine.

(** l_exec.cpp:304-334 [L_cc_link_exec] for one period: compilation, linking, execution. Throw: the formula
    is rejected or cannot be linked. Formulas with macros, lists or directives (outside the model) are
    Throw as well. *)
Definition evaluate (A : arith) (E : env A) (real_bytes : str -> list Z) (text : str) (t : Z) : res (F A) :=
  match fst (compile_text text []) with
  | C_ok atoms =>
    do code <- encode real_bytes (names_of atoms) atoms;
    if link_names E (names_of atoms) then
      do code' <- link_sample (s_start (smp E)) code;
      L_exec A E (names_of atoms) t code'
    else Throw
  | C_err | C_unmodelled => Throw
  | C_ub => UB
  end.
