(** Specification: the value of an expression tree at a period. [Ok v]: the value is v. Anything else: the
    documentation says nothing (coefficient without value, window without period, number out of range). *)
From Coq Require Import ZArith Ascii String List Bool.
From Verif Require Import M_Base M_Time M_Names M_Lex M_Compile M_Bytes M_Exec S_Lec.
Import ListNotations.
Open Scope Z_scope.

(** Lag and date given by suffixes, the innermost suffix first: the first date wins, later lags and dates
    have no effect on a dated variable. *)
Definition place (s : Z * option period) (x : suffix) : Z * option period :=
  match s, x with
  | (lag, None), SLag neg n => (if neg then lag - n else lag + n, None)
  | (lag, None), SAt p => (lag, Some p)
  | _, _ => s
  end.
Definition placed (ms : list suffix) : Z * option period := fold_left place ms (0, None).

(** The suffixes above each argument of a function: its own suffixes reach the last argument only. *)
Definition mods (ms sfx : list suffix) (n : nat) : list (list suffix) := repeat ms (n - 1) ++ [sfx ++ ms].
Section Zip.
Context {X Y Z : Type} (f : X -> Y -> Z).
Fixpoint zip (l : list X) (m : list Y) : list Z :=
  match l, m with x :: l', y :: m' => f x y :: zip l' m' | _, _ => [] end.
End Zip.
(** Number of arguments that are series: expressions evaluated at other periods. *)
Definition bodies (f : func) : nat :=
  match f with FN _ => 0 | TFN _ => 1 | MTFN f => Z.to_nat (min_args (MTFN f)) end.

Section Value.
Context (A : arith) (E : env A) (real_bytes : str -> list Z) (curt : Z).
Notation F := (F A). Notation na := (na A). Notation num := (num A).
Notation "x +. y" := (add A x y) (at level 50, left associativity).
Notation "x -. y" := (sub A x y) (at level 50, left associativity).
Notation "x *. y" := (mul A x y) (at level 40, left associativity).
Notation "x /. y" := (dvd A x y) (at level 40, left associativity).
Notation "# z" := (ofZ A z) (at level 1).

Definition all_num (l : list F) : bool := forallb num l.

(** A variable at a position of the sample; NA outside the sample. *)
Definition at_position (vals : Z -> F) (i : Z) : F :=
  if (0 <=? i) && (i <? s_nb (smp E)) then vals i else na.

Definition leaf_value (ms : list suffix) (l : leaf) (t : Z) : res F :=
  match l with
  | LReal s => Ok (real A (real_bytes s))
  | LLong n => Ok (# n)
  | LCoef n => match scalar E n with Some v => if num v then Ok v else UB | None => UB end
  | LVar n =>
    match var_at E n with
    | None => UB
    | Some vals =>
      match placed ms with
      | (lag, None) => Ok (at_position vals (t + lag))
      | (lag, Some p) => do d <- difference p (s_start (smp E)); Ok (at_position vals (d + lag))
      end
    end
  | LPeriod p => do d <- difference p (s_start (smp E)); Ok (# d)
  | LVal Vpi => Ok (pi A) | LVal Ve => Ok (euler A) | LVal Veuro => Ok (euro A)
  | LVal Vtime => Ok (# t) | LVal Vi => Ok (#t -. #curt)
  end.

(** Functions of one or several arguments, in the order of the text. *)
Definition fn_value (f : fnr) (args : list F) : res F :=
  if negb (accept_na f) && negb (all_num args) then Ok na
  else
    match f, args with
    | Flog, [x; b] => Ok (L_divide A (L_logn A x) (L_logn A b))
    | Fexpn, [x; n] => L_exp A x n
    | (Fmax | Fmin | Flsum | Flprod | Flmean | Flstderr), [] => UB
    | Fmax, _ => Ok (fold_right (fun v m => if lt A m v then v else m) (last args na) args)
    | Fmin, _ => Ok (fold_right (fun v m => if lt A v m then v else m) (last args na) args)
    | Flsum, _ => Ok (fold_right (fun v s => s +. v) #0 args)
    | Flprod, _ => Ok (fold_right (fun v s => s *. v) #1 args)
    | Flmean, _ =>
      let xs := filter num args in
      Ok (match xs with
          | [] => na
          | _ => fold_right (fun v s => s +. v) #0 xs /. #(Z.of_nat (length xs)) end)
    | Flstderr, _ =>
      let xs := filter num args in
      let n := Z.of_nat (length xs) in
      let m := fold_right (fun v s => s +. v) #0 xs /. #n in
      Ok (match xs with
          | [] | [_] => na
          | _ => sqrt A (fold_right (fun v s => s +. (v -. m) *. (v -. m)) #0 xs /. #(n - 1)) end)
    | Fround, [x; n] =>
      do k <- cast A n; let s := pow A #10 #k in Ok (floor A (half A +. x *. s) /. s)
    | Fgrandom, [m; sd] => Ok (grandom A m sd)
    | Fif, [c; x; y] => Ok (if negb (num c) || lt A (abs A c) (e15 A) then y else x)
    | Fdiv0, [x; y] => Ok (if eq A y #0 then #0 else x /. y)
    | Flcount, _ => Ok (# (Z.of_nat (length args)))
    | _, [x] => fn_body A f [x]
    | _, _ => UB
    end.

Definition op_value (o : opr) (a b : F) : res F :=
  if all_num [a; b] then run_op A o a b else Ok na.

(** Values of an expression over a list of periods, NA when one of them is NA. *)
Definition over (sub : Z -> res F) (js : list Z) (agg : list F -> F) : res F :=
  do vs <- mapM sub js; Ok (if all_num vs then agg vs else na).
Definition sum_of (l : list F) : F := fold_left (fun s v => s +. v) l #0.
(** The last number of a list. *)
Definition last_number (l : list F) : F := last (filter num l) na.

(** Window of a time function: [from, to], both bounds included, in increasing order. *)
Definition bounds (args : list F) (t : Z) : res (Z * Z) :=
  match args with
  | [] => Ok (0, t)
  | [x] => do a <- intlag A x; Ok (Z.min a t, Z.max a t)
  | [x; y] => do a <- intlag A x; do b <- intlag A y; Ok (Z.min a b, Z.max a b)
  | _ => UB
  end.
(** The optional lag, 1 by default. *)
Definition the_lag (args : list F) : res Z :=
  match args with [] => Ok 1 | [x] => intlag A x | _ => UB end.

(** Time functions: [args] are the values of the arguments before the last one. *)
Definition tfn_value (f : tfnr) (args : list F) (sub : Z -> res F) (t : Z) : res F :=
  match f with
  | Flag | Fdiff | Frapp | Fdln | Fgrt =>
    do k <- the_lag args;
    do u <- i32 (t - k);
    match f with
    | Flag => sub u
    | _ =>
      do x <- sub t; do y <- sub u;
      Ok (if all_num [x; y] then
            match f with
            | Fdiff => x -. y
            | Frapp => L_divide A x y
            | Fdln => L_logn A (L_divide A x y)
            | _ => let q := L_divide A x y in if num q then (q -. #1) *. #100 else na
            end
          else na)
    end
  | Fmavg =>
    do k <- the_lag args;
    let n := Z.max k 1 in
    do _ <- i32 (t - n + 1);
    over sub (map (fun j => t - j) (seqZ 0 (Z.to_nat n))) (fun vs => sum_of vs /. #n)
  | Fdlag => UB
  | _ =>
    do w <- bounds args t;
    let '(from, to) := (w : Z * Z) in
    let n := to - from + 1 in
    do _ <- i32 (to + 1); do _ <- i32 n; do _ <- i32 (from - 1);
    if n <? 1 then UB
    else
      let js := seqZ from (Z.to_nat n) in
      match f with
      | Fvmax => over sub js (fun vs => fold_left (fun m v => if lt A m v then v else m) (tl vs) (hd na vs))
      | Fvmin => over sub js (fun vs => fold_left (fun m v => if lt A v m then v else m) (tl vs) (hd na vs))
      | Fsum => over sub js sum_of
      | Fprod => over sub js (fun vs => fold_left (fun p v => p *. v) vs #1)
      | Fmean => over sub js (fun vs => if num (sum_of vs) then sum_of vs /. #n else na)
      | Fstderr =>
        over sub js (fun vs =>
          let s := sum_of vs in
          let s2 := sum_of (map (fun v => v *. v) vs) in
          let x := s2 -. s *. s /. #n in
          if (n <=? 1) || lt A x #0 then na else sqrt A (x /. #(n - 1)))
      | _ => do vs <- mapM sub js; Ok (last_number vs)
      end
  end.

(** Functions of several series: the functions of the model on the values of their arguments. *)
Definition mtfn_value (f : mtfnr) (nb : Z) (args : list F) (s1 s2 : Z -> res F) (t : Z) : res F :=
  do s <- mtfn_run A E f nb s1 s2 t (rev args);
  match s with [v] => Ok v | _ => UB end.

(** A function applied to its arguments, in the order of the text: the last [bodies f] of them are series. *)
Definition apply (f : func) (subs : list (Z -> res F)) (t : Z) : res F :=
  let n := length subs in
  let k := (n - bodies f)%nat in
  do vs <- mapM (fun s => s t) (firstn k subs);
  match f with
  | FN f => fn_value f vs
  | TFN f => tfn_value f vs (nth k subs (fun _ => UB)) t
  | MTFN f => mtfn_value f (Z.of_nat n) vs (nth k subs (fun _ => UB)) (nth (k + 1) subs (fun _ => UB)) t
  end.

(** The value at [t] of the tree below the suffixes [ms]. *)
Fixpoint value (ms : list suffix) (e : ex) (t : Z) : res F :=
  match e with
  | ELeaf l => leaf_value ms l t
  | EPar e => value ms e t
  | ESfx e s => value (s :: ms) e t
  | EPre f e => apply f [value ms e] t
  | EApp f args sfx => apply f (zip (fun e m => value m e) args (mods ms sfx (length args))) t
  | EBin o a b => do x <- value ms a t; do y <- value ms b t; op_value o x y
  end.
End Value.

(** * Conditions under which the machine computes this value *)

(** Number of bytes of the byte code. *)
Definition leaf_size (l : leaf) : Z :=
  match l with LReal _ | LLong _ => 9 | LCoef _ => 5 | LVar _ => 33 | LPeriod _ => 27 | LVal _ => 1 end.
Definition func_size (f : func) : Z :=
  match f with FN _ => 2 | TFN _ => 4 | MTFN f => 5 + 2 * min_args (MTFN f) end.
Fixpoint size (e : ex) : Z :=
  match e with
  | ELeaf l => leaf_size l
  | EPar e => size e
  | ESfx e _ => size e
  | EPre f e => size e + func_size f
  | EApp f args _ => sumZ (map size args) + func_size f
  | EBin _ a b => size a + size b + 1
  end.

(** The written operand is delimited: it does not end with a function of several arguments. *)
Fixpoint delimited (e : ex) : bool :=
  match e with EPre _ e => delimited e | EApp _ _ _ => false | EBin _ _ _ => false | _ => true end.
(** No ordinary function (a unary sign is one) is evaluated outside the series of time functions. *)
Fixpoint calm (e : ex) : bool :=
  match e with
  | ELeaf _ => true
  | EPar e | ESfx e _ => calm e
  | EPre f e => match f with FN _ => false | _ => true end
  | EApp f args _ => match f with FN _ => false | _ => true end
  | EBin _ a b => calm a && calm b
  end.
(** No function of several series. *)
Fixpoint no_mtfn (e : ex) : bool :=
  match e with
  | ELeaf _ => true
  | EPar e | ESfx e _ => no_mtfn e
  | EPre f e => match f with MTFN _ => false | _ => true end && no_mtfn e
  | EApp f args _ => match f with MTFN _ => false | _ => true end && forallb no_mtfn args
  | EBin _ a b => no_mtfn a && no_mtfn b
  end.
(** Variables are neither lagged nor dated, and there is no period constant. *)
Fixpoint undated (ms : list suffix) (e : ex) : bool :=
  match e with
  | ELeaf (LVar _) => match placed ms with (lag, None) => lag =? 0 | _ => false end
  | ELeaf (LPeriod _) => false
  | ELeaf _ => true
  | EPar e => undated ms e
  | ESfx e s => undated (s :: ms) e
  | EPre _ e => undated ms e
  | EApp f args sfx => forallb (fun b => b) (zip (fun e m => undated m e) args (mods ms sfx (length args)))
  | EBin _ a b => undated ms a && undated ms b
  end.

(** How an argument is evaluated: now, on the current stack ([pending]: perhaps above a NA; [quiet]: it must
    then be calm), or later as a series ([apart]: without being linked to the sample). *)
Inductive role := Now (pending quiet : bool) | Series (apart : bool).
Definition roles (f : func) (n : nat) (pending : bool) : list role :=
  match f with
  | FN f => Now pending (accept_na f && pending) :: repeat (Now true (accept_na f)) (n - 1)
  | TFN _ => repeat (Now true true) (n - 1) ++ [Series false]
  | MTFN f => let k := bodies (MTFN f) in repeat (Now true true) (n - k) ++ repeat (Series true) k
  end.
(** Functions that do what their documentation says. *)
Definition sound_func (f : func) : bool :=
  match f with
  | FN (Flcount | Fif | Fdiv0) => false
  | MTFN (Fvariance | Fstddev) => false
  | _ => true
  end.
(** [steady pending ms e]: [pending] tells whether e may be evaluated while a NA waits on the stack. *)
Fixpoint steady (pending : bool) (ms : list suffix) (e : ex) : bool :=
  let ok (e : ex) (x : list suffix * role) :=
    match x with
    | (m, Now p q) => steady p m e && (negb q || calm e)
    | (m, Series apart) => steady false m e && no_mtfn e && (negb apart || undated m e)
    end in
  match e with
  | ELeaf _ => true
  | EPar e => steady pending ms e
  | ESfx e s => steady pending (s :: ms) e
  | EBin _ a b => steady pending ms a && steady true ms b
  | EPre f e =>
    sound_func f && match f with FN _ => true | _ => delimited e end &&
    forallb (fun b => b) (zip ok [e] (combine [ms] (roles f 1 pending)))
  | EApp f args sfx =>
    sound_func f &&
    forallb (fun b => b) (zip ok args (combine (mods ms sfx (length args)) (roles f (length args) pending)))
  end.

(** Every object is known, and constants, lags and dates fit the fields of the byte code. *)
Definition short_range (z : Z) : Prop := -32768 <= z < 32768.
Definition int_range (z : Z) : Prop := -2147483648 <= z < 2147483648.
Definition dated (start p : period) : Prop :=
  year p <> 0 /\ step p <> 0 /\ int_range (year p) /\ int_range (step p) /\
  exists d, difference p start = Ok d.
Section Fits.
Context {A : arith} (E : env A) (real_bytes : str -> list Z).
Let start := s_start (smp E).
Fixpoint fits (ms : list suffix) (e : ex) : Prop :=
  match e with
  | ELeaf (LReal s) => length (real_bytes s) = 8%nat
  | ELeaf (LLong n) => 0 <= n < 1000000000
  | ELeaf (LCoef n) => is_coefficient n = true /\ scalar E n <> None
  | ELeaf (LVar n) =>
    is_coefficient n = false /\ var_at E n <> None /\
    match placed ms with
    | (lag, None) => short_range lag
    | (lag, Some p) =>
      dated start p /\ short_range lag /\ forall d, difference p start = Ok d -> short_range (d + lag)
    end
  | ELeaf (LPeriod p) => dated start p /\ forall d, difference p start = Ok d -> short_range d
  | ELeaf (LVal _) => True
  | EPar e => fits ms e
  | ESfx e s => fits (s :: ms) e
  | EPre _ e => fits ms e
  | EApp f args sfx => fold_right and True (zip (fun e m => fits m e) args (mods ms sfx (length args)))
  | EBin _ a b => fits ms a /\ fits ms b
  end.
End Fits.
