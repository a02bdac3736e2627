(** Model of the packs of the objects: what [obj_to_binary] writes and [binary_to_obj] reads
    (api/objs/k_cmt.cpp, k_lst.cpp, k_idt.cpp, k_scl.cpp, k_wsvar.cpp, k_eqs.cpp).  Tables are not modelled here.

    - [sizeof(OSIZE)] is 8.  The pointers that [P_get_ptr] returns are inside the pack; reading outside the pack is
      undefined behaviour.
    - Allocation never fails, except that of a negative number of bytes, which throws. *)
From Coq Require Import ZArith Ascii String List Bool Lia.
From Verif Require Import M_Base M_Names M_Lex M_Kdb M_Time M_Bytes M_Pack M_Codepage M_Ascii M_Binary.
Import ListNotations.
Open Scope Z_scope.

(** A sequence of [P_add]: the pointer and the length of each element. *)
Fixpoint additions (j : nat -> nat -> Z) (i : nat) (l : list (option (list Z) * Z)) : list addition :=
  match l with
  | [] => []
  | (x, lg) :: l' => (x, lg, unset (j i) (lg + 4)) :: additions j (S i) l'
  end.
Definition pack_up (e : env) (name : str) (l : list (option (list Z) * Z)) : packing :=
  match pack_of 8 (additions (pack_junk e name) 0 l) with Ok p => Packed p | Throw => Raised | UB => Overrun end.
(** A text with its NUL. *)
Definition zstring (s : str) : option (list Z) * Z := (Some (bytes s ++ [0]), Z.of_nat (length s) + 1).

(** [P_get_len], [new char[len]], [strncpy], [std::string]: the [i]-th element as a text. *)
Definition text_at (p : list Z) (i : Z) : io str :=
  try len <- of_res (P_get_len 8 p i);
  if len <? 0 then Thrown
  else
    try q <- of_res (P_get_ptr 8 p i);
    match q with
    | None => Undefined
    | Some o =>
      try x <- of_res (peek p o len);
      match cfield x with Some t => Done (text_of t) | None => Undefined end
    end.
(** [n] bytes at the place of the [i]-th element. *)
Definition bytes_at (p : list Z) (i n : Z) : io (list Z) :=
  try q <- of_res (P_get_ptr 8 p i);
  match q with None => Undefined | Some o => of_res (peek p o n) end.

(** k_cmt.cpp:5-34, k_lst.cpp:366-400. *)
Definition pack_text (e : env) (name : str) (v : str) : packing :=
  match utf8_to_oem v with Ok t => pack_up e name [zstring t] | Throw => Raised | UB => Overrun end.
Definition unpack_text (e : env) (nb : Z) (name : str) (p : list Z) : io (option str) :=
  try t <- text_at p 0; Done (Some (oem_to_utf8 t)).
Definition comments : codec str := mkCodec COMMENTS pack_text unpack_text.
Definition lists : codec str := mkCodec LISTS pack_text unpack_text.

(** k_idt.cpp:57-87 [to_binary], 154-167 [binary_to_obj]; identities.h [Identity(lec)]: a formula that does not
    compile leaves an identity with an empty formula. *)
Definition pack_idt (e : env) (name : str) (v : str) : packing :=
  match utf8_to_oem v with
  | Ok t =>
    match v with
    | [] => Refused
    | _ => if compiles e t then pack_up e name [zstring t; (None, 0)] else Refused
    end
  | Throw => Raised
  | UB => Overrun
  end.
Definition unpack_idt (e : env) (nb : Z) (name : str) (p : list Z) : io (option str) :=
  try t <- text_at p 0; Done (Some (identity_of (compiles e) (oem_to_utf8 t))).
Definition identities : codec str := mkCodec IDENTITIES pack_idt unpack_idt.

(** scalars.h:14-18: three doubles; k_scl.cpp:18-23, 31-39. *)
Record bscalar := mkB { b_value : Z; b_relax : Z; b_std : Z }.
Definition pack_scl (e : env) (name : str) (v : bscalar) : packing :=
  pack_up e name [(Some (le 8 (b_value v) ++ le 8 (b_relax v) ++ le 8 (b_std v)), 24)].
Definition unpack_scl (e : env) (nb : Z) (name : str) (p : list Z) : io (option bscalar) :=
  try q <- of_res (P_get_ptr 8 p 0);
  match q with
  | None => Done None
  | Some o => try x <- of_res (peek p o 24); Done (Some (mkB (un_le (firstZ 8 x)) (un_le (sub x 8 8)) (un_le (sub x 16 8))))
  end.
Definition scalars : codec bscalar := mkCodec SCALARS pack_scl unpack_scl.

(** variables.h:394-400, k_wsvar.cpp:1290-1301: as many values as the sample of the database has periods. *)
Definition pack_var (e : env) (name : str) (v : list Z) : packing :=
  pack_up e name [(Some (flat_map (le 8) v), 8 * Z.of_nat (length v))].
Fixpoint words_of (n : nat) (l : list Z) : list Z :=
  match n with O => [] | S n' => un_le (firstZ 8 l) :: words_of n' (skipZ 8 l) end.
Definition unpack_var (e : env) (nb : Z) (name : str) (p : list Z) : io (option (list Z)) :=
  try q <- of_res (P_get_ptr 8 p 0);
  match q with
  | None => Done None
  | Some o =>
    if nb <? 0 then Thrown
    else try x <- of_res (peek p o (8 * nb)); Done (Some (words_of (Z.to_nat nb) x))
  end.
Definition variables : codec (list Z) := mkCodec VARIABLES pack_var unpack_var.

(** equations.h:118-131; [q_comment] is the field, in the OEM code page; [q_tests]: 20 floats.  The name of the
    equation is its endogenous variable. *)
Record equation := mkQ {
  q_lec : str; q_solved : Z; q_method : Z; q_sample : sample; q_comment : str; q_block : str; q_instr : str;
  q_date : Z; q_tests : list Z }.
Definition no_sample : sample := mkS period0 period0 0.
(** k_eqs.cpp:255-268: an empty text is packed as one byte NULL. *)
Definition opt_text (s : str) : option (list Z) * Z := match s with [] => (None, 1) | _ => zstring s end.
(** k_eqs.cpp:236-278 [to_binary].  The formula is packed with the length of its UTF-8 text: the bytes after the OEM
    text are those of the buffer of utils.h:134-135, four times as long, filled with zeros. *)
Definition pack_eq (e : env) (name : str) (q : equation) : packing :=
  match q_lec q with
  | [] => Refused
  | _ =>
    match utf8_to_oem (q_lec q), utf8_to_oem (q_comment q), utf8_to_oem (q_instr q) with
    | Ok l, Ok c, Ok i =>
      if eq_compiles e name l then
        pack_up e name
          [(Some (bytes l ++ zeros (Z.of_nat (length (q_lec q)) + 1 - Z.of_nat (length l))), Z.of_nat (length (q_lec q)) + 1);
           (None, 0); (Some (le 1 (q_solved q)), 1); (Some (le 1 (q_method q)), 1);
           (Some (sample_bytes (pack_junk e name 100) (q_sample q)), 56);
           opt_text c; opt_text (q_block q); opt_text i; (Some (le 8 (q_date q)), 8); (Some (flat_map (le 4) (q_tests q)), 80)]
      else Raised
    | UB, _, _ | _, UB, _ | _, _, UB => Overrun
    | _, _, _ => Raised
    end
  end.
(** equations.h:302-343 [set_sample]: with one empty text the sample of the variables is used: not modelled. *)
Definition set_sample (a b : str) : io sample :=
  match a, b with
  | [], [] => Done no_sample
  | [], _ | _, [] => Unmodelled
  | _, _ => of_res (parse_sample a b)
  end.
Fixpoint floats_of (n : nat) (l : list Z) : list Z :=
  match n with O => [] | S n' => un_le (firstZ 4 l) :: floats_of n' (skipZ 4 l) end.
(** k_eqs.cpp:280-338 [binary_to_eqs], equations.h:134-155 [Equation(...)], 240-256 [set_lec], 358-362 [set_comment]. *)
Definition unpack_eq (e : env) (nb : Z) (name : str) (p : list Z) : io (option equation) :=
  try l <- text_at p 0;
  try m <- bytes_at p 3 1;
  try c <- text_at p 5;
  try b <- text_at p 6;
  try i <- text_at p 7;
  try s <- bytes_at p 4 56;
  let sm := if nth 0 s 0 =? 0 then no_sample else read_sample s in
  let lec := oem_to_utf8 l in
  match lec with
  | [] => Thrown
  | _ =>
    try smp <- set_sample (period_to_string (s_start sm)) (period_to_string (s_end sm));
    try com <- of_res (utf8_to_oem (oem_to_utf8 c));
    try v <- bytes_at p 2 1;
    try d <- bytes_at p 8 8;
    try t <- bytes_at p 9 80;
    let meth := signed_le m in
    Done (Some (mkQ (if eq_compiles e name lec then lec else []) (signed_le v)
                    (if (0 <=? meth) && (meth <? 5) then meth else 0) smp com b (oem_to_utf8 i) (signed_le d) (floats_of 20 t)))
  end.
Definition equations : codec equation := mkCodec EQUATIONS pack_eq unpack_eq.
