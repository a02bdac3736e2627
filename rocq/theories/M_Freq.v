(** Change of periodicity: api/report/commands/b_htol.cpp (high to low) and b_ltoh.cpp (low to high).

    Simplifications: the arguments are already split and the file is loaded ([from]; None: it could not be loaded and the
    database has no sample); the workspace is a sample and its variables; an access out of a vector or through a null
    pointer is [UB]; the integer part of [f + k / shift] is exact. *)
From Coq Require Import ZArith Ascii String List Bool.
From Verif Require Import M_Base M_Time M_Names M_Lex M_Compile M_Bytes M_Exec M_Kdb M_Vars.
Import ListNotations.
Open Scope Z_scope.

Section Freq.
Context (A : arith).
Notation F := (F A). Notation na := (na A). Notation num := (num A).
Record vdb := mkVdb { v_smp : sample; v_vars : smap (list F) }.
Definition get_at (v : list F) (i : Z) : res F := match read A v i with Some x => Ok x | None => UB end.
Definition put_at (v : list F) (i : Z) (x : F) : res (list F) := match write A v i x with Some v' => Ok v' | None => UB end.

(** * High to low *)

(** variables.h:50-55. *)
Inductive htol_method := HTOL_LAST | HTOL_MEAN | HTOL_SUM.

(** b_htol.cpp:34-82 [HTOL_smpl]: the target sample, [skip] and [shift]. Ok None: an error is reported. *)
Definition htol_smpl (fs ws : sample) : res (option (sample * Z * Z)) :=
  do fn <- nb_per_year (per (s_start fs));
  do wn <- nb_per_year (per (s_start ws));
  if (wn <=? 0) || (wn =? 12) then Ok None
  else if fn <=? wn then Ok None
  else
    let s := M_Time.step (s_start fs) in
    let y := year (s_start fs) in
    let sh := Z.quot fn wn in
    do p1 <- shift (mkP y 1 (per (s_start ws))) (Z.quot (s - 1) sh);
    let p2 := mkP (year (s_end fs)) wn (per (s_start ws)) in
    let skip := (year p1 - y) * fn + (M_Time.step p1 - 1) * sh - (s - 1) in
    let '(skip, p1) := if skip <? 0 then (skip + sh, mkP (year p1 + 1) (M_Time.step p1) (per p1)) else (skip, p1) in
    match make_sample p1 p2 with Ok t => Ok (Some (t, skip, sh)) | _ => Ok None end.

(** 157-164: positions [f] before [skip]. *)
Fixpoint skip_loop (n : nat) (f t sh : Z) (to : list F) : res (list F * Z) :=
  match n with
  | O => Ok (to, t)
  | S n' =>
    if negb (f =? 0) && (Z.rem f sh =? 0) then do to <- put_at to t na; skip_loop n' (f + 1) (t + 1) sh to
    else skip_loop n' (f + 1) t sh to
  end.
(** 172-181: the sum, from [acc], of the [n] values from [f] on. *)
Fixpoint sum_loop (n : nat) (from : list F) (f : Z) (acc : F) : res F :=
  match n with
  | O => Ok acc
  | S n' => do x <- get_at from f; if num x then sum_loop n' from (f + 1) (M_Exec.add A acc x) else Ok na
  end.
(** 166-185. *)
Fixpoint htol_loop (fuel : nat) (m : htol_method) (sh nb : Z) (from : list F) (f t : Z) (to : list F)
  : res (list F * Z) :=
  if f + sh <=? nb then
    match fuel with
    | O => UB
    | S k =>
      do old <- get_at to t;
      do v <- match m with HTOL_LAST => get_at from (f + sh - 1) | _ => sum_loop (Z.to_nat sh) from f old end;
      let v := match m with HTOL_MEAN => if num v then dvd A v (ofZ A sh) else v | _ => v end in
      do to <- put_at to t v;
      htol_loop k m sh nb from (f + sh) (t + 1) to
    end
  else Ok (to, t).
(** 187-189: the rest is NA. *)
Fixpoint fill (n : nat) (t : Z) (to : list F) : res (list F) :=
  match n with O => Ok to | S n' => do to <- put_at to t na; fill n' (t + 1) to end.
(** 152-191: one variable with [nb] periods, to [tnb] periods. *)
Definition htol_vector (m : htol_method) (skip sh nb tnb : Z) (from : list F) : res (list F) :=
  if tnb <? 0 then Throw                                             (* vector of a negative size *)
  else
    do r <- skip_loop (Z.to_nat skip) 0 0 sh (repeat (ofZ A 0) (Z.to_nat tnb));
    do r <- htol_loop (Z.to_nat nb) m sh nb from (Z.max 0 skip) (snd r) (fst r);
    fill (Z.to_nat (tnb - snd r)) (snd r) (fst r).

Definition map_vars (g : list F -> res (list F)) (l : smap (list F)) : res (smap (list F)) :=
  mapM (fun kv => do v <- g (snd kv); Ok (fst kv, v)) l.
(** b_htol.cpp:135-192: the converted database. When the samples do not fit, the null pointer [to] is used (197). *)
Definition htol (m : htol_method) (from : vdb) (ws : sample) : res vdb :=
  do r <- htol_smpl (v_smp from) ws;
  match r with
  | None => UB
  | Some (t, skip, sh) =>
    do l <- map_vars (htol_vector m skip sh (s_nb (v_smp from)) (s_nb t)) (v_vars from);
    Ok (mkVdb t l)
  end.

(** * Low to high *)

Inductive ltoh_type := LTOH_STOCK | LTOH_FLOW.                       (* variables.h:57-61 *)
Inductive ltoh_method := LTOH_LIN | LTOH_CS | LTOH_STEP.             (* variables.h:19-21; another letter: linear *)

(** b_ltoh.cpp:264-307 [LTOH_smpl]: the target sample and [shift]. *)
Definition ltoh_smpl (fs ws : sample) : res (option (sample * Z)) :=
  do fn <- nb_per_year (per (s_start fs));
  do wn <- nb_per_year (per (s_start ws));
  if wn <=? 0 then Ok None
  else if wn <=? fn then Ok None
  else
    let s := M_Time.step (s_start fs) in
    let sh := Z.quot wn fn in
    do p1 <- shift (mkP (year (s_start fs)) 1 (per (s_start ws))) (Z.quot (s - 1) sh);
    let p2 := mkP (year (s_end fs)) wn (per (s_start ws)) in
    match make_sample p1 p2 with Ok t => Ok (Some (t, sh)) | _ => Ok None end.

(** The loops on [f] and [j]: [val f j] is stored in [to[t + j]]. *)
Fixpoint write_block (n : nat) (j t : Z) (val : Z -> res F) (to : list F) : res (list F) :=
  match n with
  | O => Ok to
  | S n' => do v <- val j; do to <- put_at to (t + j) v; write_block n' (j + 1) t val to
  end.
Fixpoint write_blocks (n : nat) (f t sh : Z) (val : Z -> Z -> res F) (to : list F) : res (list F) :=
  match n with
  | O => Ok to
  | S n' => do to <- write_block (Z.to_nat sh) 0 t (val f) to; write_blocks n' (f + 1) (t + sh) sh val to
  end.
(** 76 and 78, 127 and 129: the next position with a number, and the end of the numbers. *)
Fixpoint advance (n : nat) (wanted : bool) (from : list F) (i nb : Z) : res Z :=
  match n with
  | O => Ok i
  | S n' => if i <? nb then
      do x <- get_at from i; if Bool.eqb (num x) wanted then advance n' wanted from (i + 1) nb else Ok i
    else Ok i
  end.

(** 35-50 [LTOH_ylin] in [f + k / sh]. *)
Definition ylin (y : list F) (f k sh : Z) : res F :=
  let x := M_Exec.add A (dvd A (ofZ A k) (ofZ A sh)) (ofZ A f) in
  let lo := f + k / sh in
  let hi := lo + 1 in
  let a := sub A (ofZ A hi) x in
  let b := sub A x (ofZ A lo) in
  do yl <- get_at y lo;
  if num yl then
    do yh <- get_at y hi;
    if num yh then Ok (M_Exec.add A (mul A a yl) (mul A b yh)) else Ok na
  else Ok na.
(** 68-103 [LTOH_lin], from [beg] on. *)
Fixpoint lin_runs (fuel : nat) (ty : ltoh_type) (from : list F) (nb sh beg : Z) (to : list F) : res (list F) :=
  match fuel with
  | O => UB
  | S k =>
    do beg <- advance (Z.to_nat nb) false from beg nb;
    if nb <=? beg then Ok to
    else
      do dim <- advance (Z.to_nat nb) true from beg nb;
      let dim := dim - 1 in
      do to <- (if beg <? dim then
        match ty with
        | LTOH_FLOW => write_blocks (Z.to_nat (dim - beg)) beg (beg * sh) sh
                         (fun f _ => do x <- get_at from f; Ok (dvd A x (ofZ A sh))) to
        | LTOH_STOCK => write_blocks (Z.to_nat (dim - beg)) beg ((beg + 1) * sh) sh (fun f j => ylin from f (j + 1) sh) to
        end else Ok to);
      lin_runs k ty from nb sh (dim + 1) to
  end.
(** 120-153 [LTOH_step], from [beg] on. *)
Fixpoint step_runs (fuel : nat) (ty : ltoh_type) (from : list F) (nb sh beg : Z) (to : list F) : res (list F) :=
  match fuel with
  | O => UB
  | S k =>
    do beg <- advance (Z.to_nat nb) false from beg nb;
    if nb <=? beg then Ok to
    else
      do dim <- advance (Z.to_nat nb) true from beg nb;
      do to <- (if beg <? dim then
        write_blocks (Z.to_nat (dim - beg)) beg (beg * sh) sh
          (fun f _ => do x <- get_at from f; Ok (match ty with LTOH_FLOW => dvd A x (ofZ A sh) | LTOH_STOCK => x end)) to
        else Ok to);
      step_runs k ty from nb sh (dim + 1) to
  end.

(** 156-181 [LTOH_y2cs] on the [n] values of [y] from [beg] on: [dim] and [y2]. The forward loop (165-171). *)
Definition one_half : F := dvd A (ofZ A 1) (ofZ A 2).
Fixpoint y2_forward (fuel : nat) (y : list F) (beg n i : Z) (y2 u : list F) : res (Z * list F * list F) :=
  if i <? n - 1 then
    do yi <- get_at y (beg + i);
    if num yi then
      match fuel with
      | O => UB
      | S k =>
        do q <- get_at y2 (i - 1);
        let p := M_Exec.add A (mul A one_half q) (ofZ A 2) in
        do y2 <- put_at y2 i (dvd A (sub A one_half (ofZ A 1)) p);
        do yn <- get_at y (beg + i + 1);
        do yp <- get_at y (beg + i - 1);
        do up <- get_at u (i - 1);
        let d := M_Exec.add A (sub A yn (mul A (ofZ A 2) yi)) yp in
        do u <- put_at u i (dvd A (sub A (mul A (ofZ A 3) d) (mul A one_half up)) p);
        y2_forward k y beg n (i + 1) y2 u
      end
    else Ok (i, y2, u)
  else Ok (i, y2, u).
(** 177: [i] from [n - 1] down to 0. *)
Fixpoint y2_backward (n : nat) (y2 u : list F) : res (list F) :=
  match n with
  | O => Ok y2
  | S i =>
    do a <- get_at y2 (Z.of_nat i);
    do b <- get_at y2 (Z.of_nat i + 1);
    do c <- get_at u (Z.of_nat i);
    do y2 <- put_at y2 (Z.of_nat i) (M_Exec.add A (mul A a b) c);
    y2_backward i y2 u
  end.
Definition y2cs (y : list F) (beg n : Z) (y2 : list F) : res (Z * list F) :=
  do y2 <- put_at y2 0 (ofZ A 0);
  do u <- put_at (repeat (ofZ A 0) (Z.to_nat n)) 0 (ofZ A 0);
  do r <- y2_forward (Z.to_nat n) y beg n 1 y2 u;
  let '(i, y2, u) := (r : Z * list F * list F) in
  let dim := i - 1 in
  do y2 <- put_at y2 dim (ofZ A 0);
  do y2 <- y2_backward (Z.to_nat dim) y2 u;
  Ok (dim, y2).
(** 184-203 [LTOH_ycs] in [f + k / sh]. *)
Definition ycs (y y2 : list F) (f k sh : Z) : res F :=
  let x := M_Exec.add A (dvd A (ofZ A k) (ofZ A sh)) (ofZ A f) in
  let lo := f + k / sh in
  let hi := lo + 1 in
  let a := sub A (ofZ A hi) x in
  let b := sub A x (ofZ A lo) in
  let cube c := sub A (mul A (mul A c c) c) c in
  if lo <? 0 then Ok na
  else
    do yl <- get_at y lo;
    if num yl then
      do yh <- get_at y hi;
      if num yh then
        do l2 <- get_at y2 lo;
        do h2 <- get_at y2 hi;
        Ok (M_Exec.add A (M_Exec.add A (mul A a yl) (mul A b yh))
              (dvd A (M_Exec.add A (mul A (cube a) l2) (mul A (cube b) h2)) (ofZ A 6)))
      else Ok na
    else Ok na.
(** 219: the flows are divided in place. *)
Fixpoint divide_run (n : nat) (from : list F) (f nb sh : Z) : res (list F) :=
  match n with
  | O => Ok from
  | S n' => if f <? nb then
      do x <- get_at from f;
      if num x then do from <- put_at from f (dvd A x (ofZ A sh)); divide_run n' from (f + 1) nb sh else Ok from
    else Ok from
  end.
(** 223-230: the values of one period and their sum; 232-235: the correction of the sum. *)
Fixpoint flow_block (n : nat) (j t : Z) (val : Z -> res F) (sum : F) (to : list F) : res (list F * F) :=
  match n with
  | O => Ok (to, sum)
  | S n' =>
    do v <- val j;
    do to <- put_at to (t + j) v;
    flow_block n' (j + 1) t val (if num v && num sum then M_Exec.add A sum v else na) to
  end.
Fixpoint add_block (n : nat) (t : Z) (d : F) (to : list F) : res (list F) :=
  match n with
  | O => Ok to
  | S n' => do x <- get_at to t; do to <- put_at to t (M_Exec.add A x d); add_block n' (t + 1) d to
  end.
Fixpoint flow_blocks (n : nat) (from y2 : list F) (f t sh : Z) (to : list F) : res (list F) :=
  match n with
  | O => Ok to
  | S n' =>
    do r <- flow_block (Z.to_nat sh) 0 t (fun j => ycs from y2 f (j - 1) sh) (ofZ A 0) to;
    let '(to, sum) := (r : list F * F) in
    do to <- (if num sum then
                do x <- get_at from f;
                add_block (Z.to_nat sh) t (dvd A (sub A (mul A x (ofZ A sh)) sum) (ofZ A sh)) to
              else Ok to);
    flow_blocks n' from y2 (f + 1) (t + sh) sh to
  end.
(** 206-251 [LTOH_cs], from [beg] on. [y2] keeps its values from one run to the next. *)
Fixpoint cs_runs (fuel : nat) (ty : ltoh_type) (from y2 : list F) (nb sh beg : Z) (to : list F) : res (list F) :=
  match fuel with
  | O => UB
  | S k =>
    do beg <- advance (Z.to_nat nb) false from beg nb;
    if nb <=? beg then Ok to
    else
      match ty with
      | LTOH_FLOW =>
        do from <- divide_run (Z.to_nat nb) from beg nb sh;
        do r <- y2cs from beg (nb - beg) y2;
        let '(dim, y2) := (r : Z * list F) in
        do to <- flow_blocks (Z.to_nat dim) from y2 beg (beg * sh) sh to;
        cs_runs k ty from y2 nb sh (beg + (dim + 1)) to
      | LTOH_STOCK =>
        do r <- y2cs from beg (nb - beg) y2;
        let '(dim, y2) := (r : Z * list F) in
        do to <- write_blocks (Z.to_nat dim) beg ((beg + 1) * sh) sh (fun f j => ycs from y2 f (j + 1) sh) to;
        cs_runs k ty from y2 nb sh (beg + (dim + 1)) to
      end
  end.

(** 371-396: one variable with [nb] periods, to [tnb] periods. *)
Definition ltoh_vector (m : ltoh_method) (ty : ltoh_type) (sh nb tnb : Z) (from : list F) : res (list F) :=
  if tnb <? 0 then Throw
  else
    let to := repeat na (Z.to_nat tnb) in
    let fuel := S (Z.to_nat nb) in
    match m with
    | LTOH_LIN => lin_runs fuel ty from nb sh 0 to
    | LTOH_STEP => step_runs fuel ty from nb sh 0 to
    | LTOH_CS => cs_runs fuel ty from (repeat (ofZ A 0) (Z.to_nat nb)) nb sh 0 to
    end.
(** b_ltoh.cpp:354-398: the converted database. When the samples do not fit, the null pointer [to] is used (403). *)
Definition ltoh (m : ltoh_method) (ty : ltoh_type) (from : vdb) (ws : sample) : res vdb :=
  do r <- ltoh_smpl (v_smp from) ws;
  match r with
  | None => UB
  | Some (t, sh) =>
    do l <- map_vars (ltoh_vector m ty sh (s_nb (v_smp from)) (s_nb t)) (v_vars from);
    Ok (mkVdb t l)
  end.

(** * The commands *)

(** k_wsvar.cpp:53-92 [KV_merge] with replacement. *)
Fixpoint merge_vars (l : smap (list F)) (nb n a b : Z) (ws : smap (list F)) : res (smap (list F)) :=
  match l with
  | [] => Ok ws
  | (k, v) :: l' =>
    let old := match find k ws with Some o => o | None => repeat na (Z.to_nat nb) end in
    match copy_range A (Z.to_nat n) old v a b with
    | Some new => merge_vars l' nb n a b (M_Kdb.put k new ws)
    | None => UB
    end
  end.
Definition merge_into (ws : vdb) (to : vdb) : res vdb :=
  do o <- overlap (v_smp ws) (v_smp to);
  let '(n, a, b) := (o : Z * Z * Z) in
  do l <- merge_vars (v_vars to) (s_nb (v_smp ws)) n a b (v_vars ws);
  Ok (mkVdb (v_smp ws) l).

(** b_htol.cpp:103-207 [B_htol] and b_ltoh.cpp:320-414 [B_ltoh]: [asked] are the names of variables of the command.
    Without a name the null pointer [to] is used (b_htol.cpp:118-119 and 197, b_ltoh.cpp:337-338 and 403). *)
Definition command (convert : vdb -> sample -> res vdb) (asked : list str) (from ws : option vdb) : res vdb :=
  match asked, from, ws with
  | _ :: _, Some from, Some ws => do to <- convert from (v_smp ws); merge_into ws to
  | _, _, _ => UB
  end.
Definition ws_htol (m : htol_method) := command (htol m).
Definition ws_ltoh (m : ltoh_method) (ty : ltoh_type) := command (ltoh m ty).
End Freq.
Arguments v_smp {A}. Arguments v_vars {A}. Arguments mkVdb {A}.
