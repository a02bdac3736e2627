(** Model of api/objs/pack.cpp: packs as byte buffers.

    [sz] is [sizeof(OSIZE)] ([long], api/constants.h:134: 8 on Linux, 4 on Windows); [P_ALIGN] is 4
    (constants.h:83-101).  Integers are unbounded here (the C code uses [int] and [long]); an access
    outside the buffer is [UB].  Allocation never fails; [SW_nalloc] and [SW_nrealloc] fill the new
    bytes with zeros (scr4/s_swallc.c:334-410, scr4/s_allc.c). *)
From Coq Require Import ZArith List Bool Lia.
From Verif Require Import M_Base M_Bytes.
Import ListNotations.
Open Scope Z_scope.

Definition lenZ (l : list Z) : Z := Z.of_nat (length l).
Definition zeros (n : Z) : list Z := repeat 0 (Z.to_nat n).
Definition firstZ (n : Z) (l : list Z) : list Z := firstn (Z.to_nat n) l.
Definition skipZ (n : Z) (l : list Z) : list Z := skipn (Z.to_nat n) l.

(** Reading and [memcpy] in a buffer. *)
Definition peek (buf : list Z) (off n : Z) : res (list Z) :=
  if (0 <=? off) && (0 <=? n) && (off + n <=? lenZ buf) then Ok (firstZ n (skipZ off buf)) else UB.
Definition splice (buf : list Z) (off : Z) (x : list Z) : res (list Z) :=
  if (0 <=? off) && (off + lenZ x <=? lenZ buf)
  then Ok (firstZ off buf ++ x ++ skipZ (off + lenZ x) buf) else UB.

Section Pack.
Variable sz : nat.
Let szZ := Z.of_nat sz.

(** [pos[i]] where [pos] is the buffer seen as an array of [OSIZE]. *)
Definition get_pos (buf : list Z) (i : Z) : res Z := do w <- peek buf (i * szZ) szZ; Ok (signed_le w).
Definition set_pos (buf : list Z) (i v : Z) : res (list Z) := splice buf (i * szZ) (le sz v).

(** pack.cpp:87-97 [P_create]: the length is stored through a pointer to [unsigned short]. *)
Definition P_create : list Z := le 2 (2 * szZ) ++ zeros (2 * szZ - 2).

(** pack.cpp:178-179: the old positions move by [n_p] bytes. *)
Fixpoint shift_positions (n : nat) (i n_p : Z) (buf : list Z) : res (list Z) :=
  match n with
  | O => Ok buf
  | S n' =>
    do p <- get_pos buf (i + 2);
    do buf1 <- set_pos buf (i + 2) (p + n_p);
    shift_positions n' (i + 1) n_p buf1
  end.

(** pack.cpp:123-186 [P_add].  [data] is [ptr2] ([None] for NULL) with [lg] bytes; [junk] is the
    former content of the global buffer BUF_DATA at the place of the new element (utils/buf.cpp:37-55
    does not clear it). *)
Definition P_add (buf : list Z) (data : option (list Z)) (lg : Z) (junk : list Z) : res (list Z) :=
  let lg2 := lg + 4 - lg mod 4 in
  do pos0 <- get_pos buf 0;
  do pos1 <- get_pos buf 1;
  let n_p := if pos1 mod 2 =? 0 then 2 * szZ else 0 in
  if lenZ buf <? pos0 then UB else
  let buf1 := firstZ pos0 buf ++ zeros (lg2 + n_p) in
  if pos1 =? 0 then
    do b2 <- set_pos buf1 0 (pos0 + (lg2 + n_p));
    do b3 <- set_pos b2 1 1;
    do b4 <- set_pos b3 2 (2 * szZ + n_p);
    if lg =? 0 then Ok b4
    else
      do p <- get_pos b4 2;
      match data with
      | Some x => splice b4 p (firstZ lg x)
      | None => splice b4 p (zeros lg2)
      end
  else
    do pos2 <- get_pos buf1 2;
    let dif := pos0 - pos2 in
    do old <- peek buf1 pos2 dif;
    let bufd0 := old ++ firstZ lg2 junk in
    do bufd <- (if lg =? 0 then Ok bufd0
                else match data with
                     | Some x => splice bufd0 dif (firstZ lg x)
                     | None => splice bufd0 dif (zeros lg2)
                     end);
    do b2 <- shift_positions (Z.to_nat pos1) 0 n_p buf1;
    do b3 <- set_pos b2 (pos1 + 2) (pos0 + n_p);
    do b4 <- set_pos b3 0 (pos0 + (lg2 + n_p));
    do b5 <- set_pos b4 1 (pos1 + 1);
    do p2 <- get_pos b5 2;
    do p0 <- get_pos b5 0;
    do src <- peek bufd 0 (p0 - p2);
    splice b5 p2 src.

(** pack.cpp:196-208 [P_get_ptr]: the offset of the element, [None] for NULL. *)
Definition P_get_ptr (buf : list Z) (i : Z) : res (option Z) :=
  do n <- get_pos buf 1;
  if (i <? 0) || (n - 1 <? i) then Ok None
  else do p <- get_pos buf (i + 2); Ok (Some p).

(** pack.cpp:222-248 [P_get_len] *)
Definition P_get_len (buf : list Z) (i : Z) : res Z :=
  do p0 <- get_pos buf 0;
  if p0 <=? 0 then Ok 0
  else if i <? 0 then Ok p0
  else
    do n <- get_pos buf 1;
    if n - 1 <? i then Ok (-1)
    else if i =? n - 1 then do p <- get_pos buf (i + 2); Ok (p0 - p)
    else do q <- get_pos buf (i + 3); do p <- get_pos buf (i + 2); Ok (q - p).

(** pack.cpp:259-271 [P_alloc_get_ptr] *)
Definition P_alloc_get_ptr (buf : list Z) (i : Z) : res (option (list Z)) :=
  do len <- P_get_len buf i;
  if len <=? 0 then Ok None
  else
    do p <- P_get_ptr buf i;
    match p with None => UB | Some o => do x <- peek buf o len; Ok (Some x) end.

(** pack.cpp:279-288 [P_nb] *)
Definition P_nb (buf : list Z) : res Z := get_pos buf 1.

(** A sequence of [P_add] on a new pack, as the packing functions of the objects do
    (for example k_eqs.cpp, k_tbl.cpp): each step is the pointer, the length and the stale bytes. *)
Definition addition : Type := option (list Z) * Z * list Z.
Fixpoint P_add_all (buf : list Z) (l : list addition) : res (list Z) :=
  match l with
  | [] => Ok buf
  | (d, lg, junk) :: l' => do buf' <- P_add buf d lg junk; P_add_all buf' l'
  end.
Definition pack_of (l : list addition) : res (list Z) := P_add_all P_create l.
End Pack.
