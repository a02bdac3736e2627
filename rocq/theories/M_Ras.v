(** The RAS method: api/report/commands/b_ras.cpp (report command DataRasVar, b_data.cpp:198-227).

    Simplifications: messages are left out; memory is not exhausted; the lists of the dimensions are given (B_ainit_chk) and the
    periods as positions in the sample (Period::difference); maxit is less than the greatest int (for which the counter of
    iterations would overflow). The columns, then the rows, that are scaled one after the other do not overlap: the matrix after a
    scaling is given element by element. *)
From Coq Require Import ZArith Ascii String List Bool.
From Verif Require Import M_Base M_Lex M_Report M_Kdb M_Time M_Exec M_Matrix.
Import ListNotations.
Open Scope Z_scope.

Section Ras.
Context (A : arith).
Notation F := (F A).
Notation "x +. y" := (add A x y) (at level 50, left associativity).
Notation "x -. y" := (sub A x y) (at level 50, left associativity).
Notation "x *. y" := (mul A x y) (at level 40, left associativity).
Notation "x /. y" := (dvd A x y) (at level 40, left associativity).
Notation "# z" := (ofZ A z) (at level 1).

(** b_ras.cpp:91-92, 107-108. *)
Definition factor (control sum : F) : F := if lt A #0 (abs A sum) then control /. sum else #0.
(** b_ras.cpp:95-100, 110-115: [dis > dismax]; the lines whose control is 0 are skipped ([continue]). *)
Definition worst (controls factors : nat -> F) (n : nat) : F :=
  fold_left (fun d k => if eq A (controls k) #0 then d
                        else let dis := abs A (factors k -. #1) in if lt A d dis then dis else d) (seq 0 n) #0.
(** b_ras.cpp:86-101. *)
Definition col_factor (nrows : nat) (col : list F) (a : mat A) (j : nat) : F :=
  factor (nth j col #0) (total_to A nrows (fun i => get a i j)).
Definition scale_cols (nrows ncols : nat) (col : list F) (a : mat A) : mat A :=
  build A nrows ncols (fun i j => if eq A (nth j col #0) #0 then get a i j else get a i j *. col_factor nrows col a j).
(** b_ras.cpp:103-116. *)
Definition row_factor (ncols : nat) (row : list F) (a : mat A) (i : nat) : F :=
  factor (nth i row #0) (total_to A ncols (fun j => get a i j)).
Definition scale_rows (nrows ncols : nat) (row : list F) (a : mat A) : mat A :=
  build A nrows ncols (fun i j => if eq A (nth i row #0) #0 then get a i j else get a i j *. row_factor ncols row a i).
(** b_ras.cpp:82-118: one iteration: the matrix and dismax. *)
Definition ras_step (nrows ncols : nat) (row col : list F) (a : mat A) : mat A * F :=
  let b := scale_cols nrows ncols col a in
  let cdis := worst (fun j => nth j col #0) (col_factor nrows col a) ncols in
  let rdis := worst (fun i => nth i row #0) (row_factor ncols row b) nrows in
  (scale_rows nrows ncols row b, if lt A rdis cdis then cdis else rdis).
(** b_ras.cpp:81-131: the first iteration and [more] others at most; None: diverges. *)
Fixpoint ras_loop (more nrows ncols : nat) (row col : list F) (eps : F) (a : mat A) : option (mat A) :=
  let '(a', dis) := ras_step nrows ncols row col a in
  if lt A eps dis then match more with O => None | S more => ras_loop more nrows ncols row col eps a' end
  else Some a'.
(** b_ras.cpp:60-134 [RasCalc]. [iter <= maxiter] holds [maxiter] times. *)
Definition RasCalc (nrows ncols : nat) (a : mat A) (row col : list F) (maxiter : Z) (eps : F) : option (mat A) :=
  let rsum := total_to A nrows (fun i => nth i row #0) in
  let csum := total_to A ncols (fun j => nth j col #0) in
  if lt A eps (abs A (csum -. rsum)) then None
  else ras_loop (Z.to_nat maxiter) nrows ncols row col eps a.

(** The variables of the workspace: name and values. *)
Definition vars := list (str * list F).
(** b_ras.cpp:39-58 [RasGetVar]; variables.h:200-213 [get_var_ptr]. *)
Definition RasGetVar (ws : vars) (nb : Z) (name : str) (t : Z) : res F :=
  do v <- match find name ws with
          | None => Ok (na A)
          | Some l => if (t <? 0) || (nb <=? t) then Throw else Ok (nth (Z.to_nat t) l (na A))
          end;
  Ok (if lt A (abs A v) (#1 /. #(10 ^ 10)) then #0 else v).
(** b_ras.cpp:24-37 [RasSetVar]: the value is changed in the object. *)
Definition RasSetVar (ws : vars) (name : str) (t : Z) (v : F) : vars :=
  map (fun e => if str_eqb (fst e) name then (fst e, upd_list (Z.to_nat t) (fun _ => v) (snd e)) else e) ws.

(** The buffers cvar and rvar: K_MAX_NAME + 1 characters (constants.h). *)
Definition fits (s : str) : res str := if Z.of_nat (length s) <=? 64 then Ok s else UB.
(** b_ras.cpp:187-192 (x first), 207-211 (y first). *)
Definition name_xy (pattern x y : str) : res str :=
  do p <- fits pattern; do r <- fits (replace p (S2L "x") x); fits (replace r (S2L "y") y).
Definition name_yx (pattern x y : str) : res str :=
  do p <- fits pattern; do r <- fits (replace p (S2L "y") y); fits (replace r (S2L "x") x).

(** b_ras.cpp:186-205: an element: its name, value in the reference period and, if it is known, in the current period. None: the
    execution goes to cleanup. *)
Definition element := (str * F * option F)%type.
Definition read_element (ws : vars) (nb : Z) (pattern : str) (rt ct : Z) (x y : str) : res (option element) :=
  do name <- name_xy pattern x y;
  do v <- RasGetVar ws nb name rt;
  if negb (num A v) then Ok None
  else do f <- RasGetVar ws nb name ct; Ok (Some (name, v, if num A f then Some f else None)).
(** A loop that stops when the body goes to cleanup. *)
Fixpoint collect {X Y} (f : X -> res (option Y)) (l : list X) : res (option (list Y)) :=
  match l with
  | [] => Ok (Some [])
  | x :: l' => do y <- f x;
               match y with
               | None => Ok None
               | Some y => do ys <- collect f l'; Ok (match ys with None => None | Some ys => Some (y :: ys) end)
               end
  end.
Definition read_elements (ws : vars) (nb : Z) (pattern : str) (rt ct : Z) (xs ys : list str) : res (option (list (list element))) :=
  collect (fun x => collect (fun y => read_element ws nb pattern rt ct x y) ys) xs.
Definition no_element : element := ([], #0, None).
Definition el (es : list (list element)) (i j : nat) : element := nth j (nth i es []) no_element.
Definition start_matrix (nrows ncols : nat) (es : list (list element)) : mat A :=
  build A nrows ncols (fun i j => match el es i j with (_, v, None) => v | (_, _, Some _) => #0 end).
(** b_ras.cpp:201-202, 207-225: minus the known values, in the order of the loops, plus the control; the vectors begin with zeros
    (s_swallc.c:334-353). *)
Definition less_known (n : nat) (e : nat -> element) (control : F) : F :=
  fold_left (fun s k => match e k with (_, _, Some f) => s -. f | (_, _, None) => s end) (seq 0 n) #0 +. control.
Definition read_controls (ws : vars) (nb : Z) (ct : Z) (names : list (res str)) : res (option (list F)) :=
  collect (fun r => do name <- r; do v <- RasGetVar ws nb name ct; Ok (if num A v then Some v else None)) names.
(** b_ras.cpp:229-241. The test is made on the value that is still in the workspace. *)
Definition write_back (nb ct : Z) (es : list (list element)) (a : mat A) (nrows ncols : nat) (ws : vars) : res vars :=
  fold_left (fun r ij => do ws <- r;
               let name := fst (fst (el es (fst ij) (snd ij))) in
               do v <- RasGetVar ws nb name ct;
               Ok (if num A v then ws else RasSetVar ws name ct (get a (fst ij) (snd ij))))
            (list_prod (seq 0 nrows) (seq 0 ncols)) (Ok ws).
(** b_ras.cpp:152-253 [RasExecute]: the return code (0: true) and the workspace. [nb]: the number of periods; the last elements of
    the dimensions are the sums. *)
Definition RasExecute (ws : vars) (nb : Z) (pattern : str) (xdim ydim : list str) (rt ct maxit : Z) (eps : F) : res (bool * vars) :=
  if (rt <? 0) || (ct <? 0) then Ok (false, ws)
  else match rev xdim, rev ydim with
  | [], _ | _, [] => if (Nat.eqb (length xdim) 1) || (Nat.eqb (length ydim) 1) then Ok (false, ws) else UB
  | xsum :: rx, ysum :: ry =>
    let xs := rev rx in let ys := rev ry in
    let nrows := length xs in let ncols := length ys in
    if (Nat.eqb nrows 0) || (Nat.eqb ncols 0) then Ok (false, ws)
    else
      do e <- read_elements ws nb pattern rt ct xs ys;
      match e with
      | None => Ok (false, ws)
      | Some es =>
        do r <- read_controls ws nb ct (map (fun x => name_yx pattern x ysum) xs);
        match r with
        | None => Ok (false, ws)
        | Some rs =>
          do c <- read_controls ws nb ct (map (fun y => name_xy pattern xsum y) ys);
          match c with
          | None => Ok (false, ws)
          | Some cs =>
            let row := map (fun i => less_known ncols (fun j => el es i j) (nth i rs #0)) (seq 0 nrows) in
            let col := map (fun j => less_known nrows (fun i => el es i j) (nth j cs #0)) (seq 0 ncols) in
            match RasCalc nrows ncols (start_matrix nrows ncols es) row col maxit eps with
            | None => Ok (false, ws)
            | Some a => do w <- write_back nb ct es a nrows ncols ws; Ok (true, w)
            end
          end
        end
      end
  end.
End Ras.
