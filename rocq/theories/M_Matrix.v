(** Matrices: scr4/s_mat.h, s_ma*.c.

    Simplifications: a matrix is the list of its lines; its dimensions are arguments (the callers modelled here only use
    matrices of the right dimensions, so the branches M_errno = M_..DIM_ERR are left out), and memory is not exhausted. A loop
    that fills a matrix with values of other matrices is [build]. *)
From Coq Require Import ZArith List Bool.
From Verif Require Import M_Base M_Exec.
Import ListNotations.
Open Scope Z_scope.

Section Matrix.
Context (A : arith).
Notation F := (F A).
Notation "x +. y" := (add A x y) (at level 50, left associativity).
Notation "x -. y" := (sub A x y) (at level 50, left associativity).
Notation "x *. y" := (mul A x y) (at level 40, left associativity).
Notation "x /. y" := (dvd A x y) (at level 40, left associativity).
Notation "x =. y" := (eq A x y) (at level 70).
Notation "# z" := (ofZ A z) (at level 1).

Definition mat := list (list F).
(** s_mat.h:45 [MATE]. *)
Definition get (m : mat) (i j : nat) : F := nth j (nth i m []) #0.
Definition build (nl nc : nat) (f : nat -> nat -> F) : mat := map (fun i => map (f i) (seq 0 nc)) (seq 0 nl).
(** A loop sum = 0.0; for(k = 0; k < n; k++) sum += f(k). *)
Definition total_to (n : nat) (f : nat -> F) : F := fold_left (fun s k => s +. f k) (seq 0 n) #0.
(** s_mat.h:12 [ZERO]: the constant is the quotient, in double the nearest number to 1e-25. *)
Definition ten25 : F := #(10 ^ 25).
Definition ZERO (x : F) : bool := lt A (abs A x) (#1 /. ten25).

(** s_manull.c, s_makron.c, s_macalc.c ('+' and '-'), s_mascal.c, s_matran.c (another matrix), s_maextr.c, s_maprod.c, s_maxxp.c, s_maxpx.c. *)
Definition M_clear (nl nc : nat) : mat := build nl nc (fun _ _ => #0).
Definition M_diag (n : nat) (x : F) : mat := build n n (fun i j => if Nat.eqb i j then x else #0).
Definition M_add (nl nc : nat) (a b : mat) : mat := build nl nc (fun i j => get a i j +. get b i j).
Definition M_sub (nl nc : nat) (a b : mat) : mat := build nl nc (fun i j => get a i j -. get b i j).
Definition M_scale (nl nc : nat) (a : mat) (x : F) : mat := build nl nc (fun i j => get a i j *. x).
(** [M_trans nl nc m]: the transposition of m (nl x nc). *)
Definition M_trans (nl nc : nat) (a : mat) : mat := build nc nl (fun i j => get a j i).
(** [M_extr m l c nl nc]: from line l and column c. *)
Definition M_extr (a : mat) (l c nl nc : nat) : mat := build nl nc (fun i j => get a (l + i) (c + j)).
(** [M_prod l m n a b]: a (l x m) times b (m x n). *)
Definition M_prod (l m n : nat) (a b : mat) : mat := build l n (fun i j => total_to m (fun k => get a i k *. get b k j)).
(** The lower half is calculated and copied to the upper half. *)
Definition M_xxprim (l m : nat) (a : mat) : mat :=
  build l l (fun i j => total_to m (fun k => get a (max i j) k *. get a (min i j) k)).
Definition M_xprimx (l m : nat) (a : mat) : mat :=
  build m m (fun i j => total_to l (fun k => get a k (max i j) *. get a k (min i j))).

(** * Inverse: s_mainv.c:46-107 [M_inv_1] *)

(** s_mainv.c:81-96: one turn of the loop on m; None: the pivot is 0. *)
Definition inv_step (n m : nat) (t : mat) : option mat :=
  let p := get t m m -. #1 in
  if p =. #0 then None
  else Some (build n n (fun i j => if Nat.eqb i m then get t m j /. p else get t i j -. get t i m *. (get t m j /. p))).
Fixpoint inv_steps (n : nat) (ms : list nat) (t : mat) : option mat :=
  match ms with
  | [] => Some t
  | m :: ms => match inv_step n m t with None => None | Some t => inv_steps n ms t end
  end.
(** None: M_errno = M_INVDET_ERR. *)
Definition M_inv_1 (n : nat) (a : mat) : option mat :=
  match inv_steps n (seq 0 n) (build n n (fun i j => if Nat.eqb i j then get a i j +. #1 else get a i j)) with
  | None => None
  | Some t => Some (build n n (fun i j => if Nat.eqb i j then get t i j -. #1 else get t i j))
  end.

(** * Linear systems: s_masol.c *)

(** The system: the matrix m1 and the vector m2 (its only column). *)
Record system := mkSys { s_a : mat; s_b : list F }.
Definition at_b (s : system) (i : nat) : F := nth i (s_b s) #0.
(** s_masol.c:179-211 [M_gel_pivot]: the first line from r on with an element that is not ZERO in column r changes places with
    line r (line r itself is ZERO). None: error 2. *)
Definition M_gel_pivot (n r : nat) (s : system) : option system :=
  match find (fun k => negb (ZERO (get (s_a s) k r))) (seq r (n - r)) with
  | None => None
  | Some k =>
    let other i := if Nat.eqb i r then k else if Nat.eqb i k then r else i in
    Some (mkSys (build n n (fun i j => get (s_a s) (other i) j)) (map (fun i => at_b s (other i)) (seq 0 n)))
  end.
(** s_masol.c:134-155: one turn of the loop on r_row. *)
Definition gel_step (n r : nat) (s : system) : option system :=
  match (if ZERO (get (s_a s) r r) then M_gel_pivot n r s else Some s) with
  | None => None
  | Some s =>
    let mult i := neg A (get (s_a s) i r) /. get (s_a s) r r in
    let touched i := Nat.ltb r i && negb (ZERO (get (s_a s) i r)) in
    Some (mkSys (build n n (fun i j => if touched i then get (s_a s) i j +. mult i *. get (s_a s) r j else get (s_a s) i j))
                (map (fun i => if touched i then at_b s i +. mult i *. at_b s r else at_b s i) (seq 0 n)))
  end.
Fixpoint gel_steps (n : nat) (rs : list nat) (s : system) : option system :=
  match rs with
  | [] => Some s
  | r :: rs => match gel_step n r s with None => None | Some s => gel_steps n rs s end
  end.
(** s_masol.c:125-166 [M_gel_ut]: after an error of the pivot the matrix stays as it is and the error remains. *)
Definition M_gel_ut (n : nat) (s : system) : option system :=
  match gel_steps n (seq 0 (n - 1)) s with
  | None => None
  | Some s => if ZERO (get (s_a s) (n - 1) (n - 1)) then None else Some s
  end.
(** s_masol.c:222-238 [M_bw_sub]: from the last line to the first; [x] are the values found, those of lines i + 1 .. n - 1. *)
Fixpoint bw_sub (n : nat) (i : nat) (s : system) (x : list F) : list F :=
  match i with
  | O => x
  | S i =>
    let sum := fold_left (fun z '(k, v) => z +. get (s_a s) i k *. v) (combine (seq (S i) (n - S i)) x) #0 in
    bw_sub n i s ((at_b s i -. sum) /. get (s_a s) i i :: x)
  end.
(** s_masol.c:39-88 [M_solve], 101-112 [M_gel_init]. None: M_errno = M_SOLNOSOL_ERR. *)
Definition M_solve (n : nat) (a : mat) (b : list F) : option (list F) :=
  let s := mkSys a b in
  match n with
  | O => None
  | S O => if ZERO (get a 0 0) then None else Some [at_b s 0 /. get a 0 0]
  | _ => match M_gel_ut n s with None => None | Some s => Some (bw_sub n n s []) end
  end.
End Matrix.
Arguments get {A}. Arguments mkSys {A}. Arguments s_a {A}. Arguments s_b {A}. Arguments at_b {A}.
