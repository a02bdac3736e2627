(** Seasonal adjustment: api/report/undoc/b_season.cpp.
    Simplifications: arrays are functions of the index, 0 where nothing has been written (s_swallc.c:334-353); memory is not exhausted; the
    file that is read and the merge with the workspace (C27) are left out: a series is given by its values on the sample. *)
From Coq Require Import ZArith Ascii String List Bool.
From Verif Require Import M_Base M_Names M_Exec.
Import ListNotations.
Open Scope Z_scope.

Section Season.
Context (A : arith).
Notation F := (F A).
Notation "x +. y" := (add A x y) (at level 50, left associativity).
Notation "x -. y" := (sub A x y) (at level 50, left associativity).
Notation "x *. y" := (mul A x y) (at level 40, left associativity).
Notation "x /. y" := (dvd A x y) (at level 40, left associativity).
Notation "# z" := (ofZ A z) (at level 1).
Notation "% n" := (ofZ A (Z.of_nat n)) (at level 1).

Definition upd (a : nat -> F) (i : nat) (x : F) (k : nat) : F := if Nat.eqb k i then x else a k.
Definition total (l : list nat) (g : nat -> F) : F := fold_left (fun s m => s +. g m) l #0.
Definition mean2 (x y : F) : F := half A *. (x +. y).
Definition mean3 (x y z : F) : F := (#1 /. #3) *. (x +. y +. z).
Definition within (a b f : nat) : bool := Nat.leb a f && Nat.ltb f b.

(** * The test *)
(** b_season.cpp:143-158: beg, the end of the numbers, shift; then the values that are shifted. *)
Fixpoint leading (p : F -> bool) (l : list F) : nat := match l with x :: l => if p x then S (leading p l) else O | [] => O end.
Definition fmin (a b : F) : F := if lt A b a then b else a.
Definition fmax (a b : F) : F := if lt A a b then b else a.
(** b_season.cpp:139-185 [DS_test]: the code, vec, beg, dim, shift. *)
Definition DS_test (eps : F) (p : nat) (l : list F) : bool * list F * nat * nat * F :=
  let beg := leading (fun x => negb (num A x)) l in
  let dim := (beg + leading (num A) (skipn beg l))%nat in
  let low := fold_left fmin (firstn (dim - beg) (skipn beg l)) #0 in
  let neg := lt A low #0 in
  let shift := if neg then ((#(-11) /. #10) *. low) else #0 in
  let l1 := if neg then firstn beg l ++ map (fun x => x +. shift) (firstn (dim - beg) (skipn beg l)) ++ skipn dim l else l in
  let tolag := (dim - ((dim - beg) / p) * p)%nat in
  let l2 := repeat (na A) tolag ++ skipn tolag l1 in
  let dim2 := (dim - tolag)%nat in
  let vec := fun f => nth f l2 #0 in
  let ti0 := fun f => total (filter (fun g => Nat.eqb (g mod p) f) (seq (tolag + 1) (dim2 - 2))) (fun g => #200 *. vec g /. (vec (g - 1)%nat +. vec (g + 1)%nat)) in
  let nj := Z.of_nat (dim2 / p) in
  let ti := fun f => if Nat.eqb f 0 || Nat.eqb f 11 then ti0 f /. #(nj - 1) else ti0 f /. #nj in
  let hi := fold_left (fun x f => fmax x (ti f)) (seq 0 p) #0 in
  let lo := fold_left (fun x f => fmin x (ti f)) (seq 0 p) #150 in
  (lt A eps (abs A (hi -. lo)), l2, tolag, dim2, shift).

(** * The adjustment: [p] periods in a year, [y] years *)
Section Years.
Variables p y : nat.
Definition nb : nat := (p * y)%nat.
(** b_season.cpp:204-211: moving average, ratios. *)
Definition ai (vec : nat -> F) (f : nat) : F :=
  total (seq 0 (p - 1)) (fun m => vec (f - (p / 2 - 1) + m)%nat /. %p) +. (#1 /. % (p * 2)) *. (vec (f - p / 2)%nat +. vec (f + p / 2)%nat).
Definition ratios (vec : nat -> F) (f : nat) : F := if within (p / 2) (nb - p / 2) f then #100 *. vec f /. ai vec f else #0.
(** b_season.cpp:217-229, 305-309, 342-345: the values of one month, with their ends. *)
Definition ma_first (m : nat) (bi : nat -> F) (k : nat) : F :=
  let col j := bi (p * j + m)%nat in
  if Nat.ltb m (p / 2)
  then if Nat.leb k 1 then mean2 (col 1%nat) (col 2%nat) else if Nat.leb k y then col (k - 1)%nat else mean2 (col (y - 2)%nat) (col (y - 1)%nat)
  else if Nat.leb k 1 then mean2 (col 0%nat) (col 1%nat) else if Nat.leb k y then col (k - 2)%nat else mean2 (col (y - 3)%nat) (col (y - 2)%nat).
Definition ma_all (m : nat) (bi : nat -> F) (k : nat) : F :=
  let col j := bi (p * j + m)%nat in
  if Nat.leb k 1 then mean2 (col 0%nat) (col 1%nat) else if Nat.leb k (y + 1) then col (k - 2)%nat else mean2 (col (y - 2)%nat) (col (y - 1)%nat).
(** b_season.cpp:371-373. *)
Definition ma_seven (m : nat) (bi : nat -> F) (k : nat) : F :=
  let col j := bi (p * j + m)%nat in
  if Nat.leb k 2 then mean2 (col 0%nat) (col 1%nat) else if Nat.leb k (y + 2) then col (k - 3)%nat else mean2 (col (y - 2)%nat) (col (y - 1)%nat).
(** b_season.cpp:231-235: m5. *)
Definition fifth (ma : nat -> F) (j : nat) : F := total (seq 0 5) (fun f => (#1 /. #5) *. ma (j + f)%nat).
(** b_season.cpp:237-252: the spread of the months [js] around [m5], and 256-292 the values further than twice the spread. *)
Definition spread (m : nat) (js : list nat) (m5 : nat -> F) (by_ : Z) (bi : nat -> F) : F :=
  sqrt A (total js (fun j => let d := bi (p * j + m)%nat -. m5 j in d *. d) *. (#1 /. # by_)).
Definition clean (m : nat) (js : list nat) (m5 : nat -> F) (s : F) (bi : nat -> F) : nat -> F :=
  fold_left (fun bi j =>
    let col j := bi (p * j + m)%nat in
    if lt A (#2 *. s) (abs A (col j -. m5 j)) then
      upd bi (p * j + m) (if Nat.eqb j 0 then mean3 (col 0%nat) (col 1%nat) (col 2%nat)
        else if Nat.eqb j (y - 1) then mean3 (col (j - 2)%nat) (col (j - 1)%nat) (col j) else mean3 (col (j - 1)%nat) (col j) (col (j + 1)%nat))
    else bi) js bi.
Definition month_first (bi : nat -> F) (m : nat) : nat -> F :=
  let ma := ma_first m bi in
  let js := if Nat.ltb m (p / 2) then seq 1 (y - 1) else seq 0 (y - 1) in
  let m5 := fun j => if Nat.ltb m (p / 2) then fifth ma (j - 1) else fifth ma j in
  clean m js m5 (spread m js m5 (Z.of_nat y - 2) bi) bi.
(** b_season.cpp:294-295. *)
Definition ends (bi : nat -> F) (f : nat) : F :=
  let bi1 f := if Nat.ltb f (p / 2) then bi (f + p)%nat else bi f in
  if Nat.leb (nb - p / 2) f then bi1 (f - p)%nat else bi1 f.
(** b_season.cpp:297-302, 381-386: each year has the mean 100. *)
Definition centred (bi : nat -> F) (f : nat) : F :=
  bi f +. ((#(Z.of_nat p * 100) -. total (seq 0 p) (fun m => bi (p * (f / p) + m)%nat)) /. %p).
(** b_season.cpp:304-316. *)
Definition w5 (f : nat) : F := # (nth f [1; 2; 3; 2; 1] 0).
Definition w7 (f : nat) : F := # (nth f [1; 2; 3; 3; 3; 2; 1] 0).
Definition w15 (f : nat) : F := # (nth f [-3; -6; -5; 3; 21; 46; 67; 74; 67; 46; 21; 3; -5; -6; -3] 0).
Definition smooth5 (bi : nat -> F) (f : nat) : F := total (seq 0 5) (fun k => w5 k /. #9 *. ma_all (f mod p) bi (f / p + k)%nat).
Definition smooth7 (bi : nat -> F) (f : nat) : F := total (seq 0 7) (fun k => w7 k /. #15 *. ma_seven (f mod p) bi (f / p + k)%nat).
(** b_season.cpp:318-323, 412-419: [v] with seven values at each end. *)
Definition longer (v : nat -> F) (k : nat) : F :=
  if Nat.ltb k 7 then (#1 /. #4) *. (v 0%nat +. v 1%nat +. v 2%nat +. v 3%nat)
  else if Nat.ltb k (nb + 7) then v (k - 7)%nat
  else (#1 /. #4) *. (v (nb - 1)%nat +. v (nb - 2)%nat +. v (nb - 3)%nat +. v (nb - 4)%nat).
(** b_season.cpp:326-331, 421-427. *)
Definition spencer (v : nat -> F) (f : nat) : F := total (seq 0 15) (fun j => w15 j /. #320 *. longer v (f + j)%nat).
(** b_season.cpp:340-379. *)
Definition month_all (bi : nat -> F) (m : nat) : nat -> F :=
  let js := seq 0 y in let m5 := fifth (ma_all m bi) in clean m js m5 (spread m js m5 (Z.of_nat y - 1) bi) bi.
(** b_season.cpp:187-437 [DS_vec]: vec, c1, i1 and season. *)
Definition first_bi (vec : nat -> F) : nat -> F := smooth5 (centred (ends (fold_left month_first (seq 0 p) (ratios vec)))).
Definition second_bi (vec : nat -> F) : nat -> F :=
  let bi := first_bi vec in
  let ci := fun f => #100 *. vec f /. bi f in
  let c1 := spencer ci in
  let i1 := fun f => #100 *. ci f /. c1 f in
  let di1 := total (seq 1 (nb - 1)) (fun f => abs A (i1 f -. i1 (f - 1)%nat) /. #(Z.of_nat nb - 1)) in
  let bi2 := centred (fold_left month_all (seq 0 p) (fun f => #100 *. vec f /. c1 f)) in
  if le_f A di1 #2 then smooth5 bi2 else smooth7 bi2.
Definition DS_vec (vec : nat -> F) (shift : F) : res ((nat -> F) * (nat -> F) * (nat -> F) * (nat -> F)) :=
  if Nat.ltb y 3 then UB
  else
    let bi := second_bi vec in
    let season := fun m => half A *. (#3 *. bi (p * (y - 1) + m)%nat -. bi (p * (y - 2) + m)%nat) in
    let v := fun f => #100 *. vec f /. bi f in
    let c1 := spencer v in
    Ok (fun f => v f -. shift, fun f => c1 f -. shift, fun f => #100 *. v f /. c1 f, season).
End Years.

(** b_season.cpp:92-123, one series: the variables that are put in the workspace. After the numbers (beg + dim) comes a value that is not a
    number, or the end: [DS_extr] changes nothing. [DS_vec] is given the [dim] values from [beg]. *)
Definition season_series (eps : F) (p : nat) (name : str) (l : list F) : res (list (str * list F)) :=
  let '(r, l2, beg, dim, shift) := DS_test eps p l in
  if r then
    do x <- DS_vec p (dim / p) (fun f => nth f (firstn dim (skipn beg l2)) #0) shift;
    let '(v, c, i, _) := x in
    let fill g := repeat (na A) beg ++ map g (seq 0 dim) ++ repeat (na A) (length l - (beg + dim)) in
    Ok [(name, firstn beg l2 ++ map v (seq 0 dim) ++ skipn (beg + dim) l2); (S2L "_C" ++ name, fill c); (S2L "_I" ++ name, fill i)]
  else Ok [(name, l2)].
End Season.

(** b_season.cpp:33-72: [n] arguments after the file, of which the last is a threshold ([eps]); [loaded] series are read; [smpl] tells that the
    sample of the file meets the one of the workspace in whole years. Every error jumps to [done], where line 121 dereferences [to], still null. *)
Definition season_start (n : nat) (eps : bool) (loaded : nat) (smpl : bool) : res nat :=
  if Nat.eqb n 0 then UB
  else let n := if eps then (n - 1)%nat else n in if Nat.eqb n loaded && smpl then Ok n else UB.
