(** The cells of a table on the columns of a generalised sample: api/gsample/c_calc.cpp.

    Simplifications: a table line is the list of its formulas (compiled); the formulas are linked afresh for each column
    and file (in the code the copy of the formula is linked again, which overwrites the same fields); the variables of
    the files and the scalars are those of [env]; periods are small enough for the type int. *)
From Coq Require Import ZArith Ascii String List Bool.
From Verif Require Import M_Base M_Time M_Names M_Lex M_Compile M_Bytes M_Exec M_Gsample.
Import ListNotations.
Open Scope Z_scope.

Section Calc.
Context (A : arith).
Notation F := (F A). Notation na := (na A). Notation num := (num A).
Notation "x +. y" := (add A x y) (at level 50, left associativity).
Notation "x -. y" := (sub A x y) (at level 50, left associativity).
Notation "x *. y" := (mul A x y) (at level 40, left associativity).
Notation "x /. y" := (dvd A x y) (at level 40, left associativity).
Notation "x =. y" := (eq A x y) (at level 70).
Notation "# z" := (ofZ A z) (at level 1).

(** A compiled formula: its names and its code (lec.h [CLEC]). *)
Record clec := mkX { x_names : list str; x_code : list Z }.
(** variables.h:366 [global_ref_var]: an array of five pointers; other positions are beyond it. *)
Definition file_at (files : list (option (env A))) (i : Z) : res (option (env A)) :=
  if (1 <=? i) && (i <=? 5) then Ok (nth (Z.to_nat (i - 1)) files None) else UB.
(** c_calc.cpp:73-84 [COL_link]: None is an error. *)
Definition link_to (o : option (env A)) (x : clec) : res (option clec) :=
  match o with
  | None => Ok None
  | Some E => if link_names E (x_names x) then do c <- link_sample (s_start (smp E)) (x_code x); Ok (Some (mkX (x_names x) c))
              else Ok None
  end.
(** c_calc.cpp:136-145: None is the jump to err. *)
Definition value (E : env A) (x : clec) (d : option clec) (t : Z) : res (option F) :=
  do v <- L_exec A E (x_names x) t (x_code x);
  if negb (num v) then Ok None
  else
    do dv <- match d with None => Ok #1 | Some d => L_exec A E (x_names d) t (x_code d) end;
    if negb (num dv) || (dv =. #0) then Ok None else Ok (Some (v /. dv)).
(** c_calc.cpp:197-211. *)
Fixpoint total (E : env A) (x : clec) (d : option clec) (ts : list Z) (acc : F) : res (option F) :=
  match ts with
  | [] => Ok (Some acc)
  | t :: ts => do o <- value E x d t; match o with Some v => total E x d ts (acc +. v) | None => Ok None end
  end.
(** c_calc.cpp:125-218: the value on one file. *)
Definition on_periods (op : gop) (p : Z) (v0 v1 : F) (sum : res (option F)) : res (option F) :=
  let rel (k : F -> F) := if v1 =. #0 then Ok None else Ok (Some (k (v0 /. v1))) in
  match op with
  | NOP => Ok (Some v0)
  | MDIFF => Ok (Some (if p =? 0 then #0 else (v0 -. v1) /. #p))
  | MGRT =>
    if p =? 0 then Ok (Some #0)
    else rel (fun m =>
      let '(m, sign) := if lt A m #0 then (neg A m, # (-1)) else (m, #1) in
      sign *. #100 *. (pow A m (#1 /. #p) -. #1))
  | BASE => rel (fun m => #100 *. m)
  | DIFF => Ok (Some (v0 -. v1))
  | GRT => rel (fun m => #100 *. (m -. #1))
  | ADD => sum
  | MEAN => do o <- sum; Ok (match o with Some s => Some (s /. #(p + 1)) | None => None end)
  end.
Definition on_file (c : col) (E : env A) (x : clec) (d : option clec) : res (option F) :=
  let start := s_start (smp E) in
  do t0 <- difference (per0 c) start;
  do o0 <- value E x d t0;
  match o0 with
  | None => Ok None
  | Some v0 =>
    match opy c with
    | NOP => on_periods NOP 0 v0 v0 (Ok None)
    | _ =>
      do t1 <- difference (per1 c) start;
      do o1 <- value E x d t1;
      match o1 with
      | None => Ok None
      | Some v1 =>
        let p := Z.max t0 t1 - Z.min t0 t1 in
        on_periods (opy c) p v0 v1 (total E x d (seqZ (Z.min t0 t1) (Z.to_nat (p + 1))) #0)
      end
    end
  end.
(** c_calc.cpp:111-123: what one turn of the loop gives. *)
Inductive turn := Skip | Err | Minus1 | Val (v : F).
Definition file_turn (files : list (option (env A))) (c : col) (f : Z) (x : clec) (d : option clec) : res turn :=
  if f =? 0 then Ok Skip
  else
    do o <- file_at files f;
    do l <- link_to o x;
    match l, o with
    | Some x', Some E =>
      do ld <- match d with None => Ok (Some None) | Some d => do l <- link_to o d; Ok (option_map Some l) end;
      match ld with
      | None => Ok Minus1
      | Some d' => do v <- on_file c E x' d'; Ok (match v with Some v => Val v | None => Err end)
      end
    | _, _ => Ok Err
    end.
(** c_calc.cpp:221-256. An uninitialised vf[i] is UB when it is read. *)
Definition on_files (op : option gop) (v0 v1 : option F) : res F :=
  let both k := match v0, v1 with Some a, Some b => Ok (k a b) | _, _ => UB end in
  let rel k := both (fun a b => if b =. #0 then na else k (a /. b)) in
  match op with
  | Some NOP => match v0 with Some a => Ok a | None => UB end
  | Some DIFF => both (fun a b => a -. b)
  | Some MEAN => both (fun a b => half A *. (a +. b))
  | Some GRT => rel (fun m => #100 *. (m -. #1))
  | Some BASE => rel (fun m => #100 *. m)
  | Some ADD => both (fun a b => a +. b)
  | _ => Ok na
  end.
(** c_calc.cpp:104-262 [COL_calc]: None is the result -1 (the value of the column stays). *)
Definition COL_calc (files : list (option (env A))) (c : col) (x : clec) (d : option clec) : res (option F) :=
  do r0 <- file_turn files c (fnb0 c) x d;
  match r0 with
  | Err => Ok (Some na)
  | Minus1 => Ok None
  | _ =>
    do r1 <- file_turn files c (fnb1 c) x d;
    let got r := match r with Val v => Some v | _ => None end in
    match r1 with
    | Err => Ok (Some na)
    | Minus1 => Ok None
    | _ => do v <- on_files (opf c) (got r0) (got r1); Ok (Some v)
    end
  end.

(** * A line of a table *)

(** A cell: None is a text or an empty cell; with the divisor of the column. *)
Definition cell : Type := option (clec * option clec).
(** c_calc.cpp:276-300 [COL_resize]: each column as many times as the table has columns; the result. *)
Definition COL_resize (dim : nat) (repeat_columns : Z) (cols : list col) : list col * Z :=
  let l := flat_map (fun c => repeat c dim) cols in
  (l, if repeat_columns =? 0 then 1 + Z.of_nat (length cols) * (Z.of_nat dim - 1) else Z.of_nat (length l)).
Fixpoint set_nth {X} (l : list X) (i : nat) (x : X) : list X :=
  match l, i with
  | _ :: l, O => x :: l
  | y :: l, S i => y :: set_nth l i x
  | [], _ => []
  end.
(** c_calc.cpp:355-363: the columns d, d + dim, ... of the line; false is the result -1. [vals] are the fields cl_res. *)
Fixpoint exec_cell (files : list (option (env A))) (cols : list col) (dim d : nat) (x : clec) (dv : option clec)
  (js : list nat) (vals : list F) : res (bool * list F) :=
  match js with
  | [] => Ok (true, vals)
  | j :: js =>
    let i := (d + j * dim)%nat in
    match nth_error cols i with
    | None => UB
    | Some c =>
      do o <- COL_calc files c x dv;
      match o with
      | None => Ok (false, vals)
      | Some v => exec_cell files cols dim d x dv js (set_nth vals i v)
      end
    end
  end.
(** c_calc.cpp:330-366 [COL_exec], after [COL_clear] (308-314). *)
Fixpoint exec_cells (files : list (option (env A))) (cols : list col) (dim d : nat) (cells : list cell) (vals : list F)
  : res (bool * list F) :=
  match cells with
  | [] => Ok (true, vals)
  | None :: cells => exec_cells files cols dim (S d) cells vals
  | Some (x, dv) :: cells =>
    do r <- exec_cell files cols dim d x dv (seq 0 (length cols / dim)) vals;
    if fst r then exec_cells files cols dim (S d) cells (snd r) else Ok r
  end.
Definition COL_exec (files : list (option (env A))) (cols : list col) (cells : list cell) : res (bool * list F) :=
  exec_cells files cols (length cells) 0 cells (map (fun _ => #0) cols).
End Calc.
