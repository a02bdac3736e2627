(** Second stage of LEC compilation: atomic elements to byte code (api/lec/k_lec.cpp [CLEC::initialize]),
    and reading one instruction back (the decoding constructors of api/lec/l_*.h).
    Bytes are integers 0..255; ABI of the 64-bit Linux build: int 4, short 2, long 8, double 8,
    sizeof(Period) = 24 (long year, long step, char periodicity, 7 bytes of padding). *)
From Coq Require Import ZArith Ascii String List Bool.
From Verif Require Import M_Base M_Time M_Names M_Lex M_Compile.
Import ListNotations.
Open Scope Z_scope.

(** memcpy of an integer: little endian two's complement on [n] bytes. *)
Fixpoint le (n : nat) (z : Z) : list Z :=
  match n with O => [] | S n' => z mod 256 :: le n' (z / 256) end.
Fixpoint un_le (l : list Z) : Z :=
  match l with [] => 0 | b :: l' => b + 256 * un_le l' end.
Definition signed_le (l : list Z) : Z :=
  let m := 256 ^ Z.of_nat (length l) in
  let u := un_le l in if m <=? 2 * u then u - m else u.

(** Type codes: api/lec/l_common.h:24-46, l_exec_fns.h:8-46, l_exec_ops.h:7-23, l_exec_tfn.h:7-23,
    l_exec_val.h:8-15, l_exec_mtfn.h:8-22. The position in a table is the position in the C enumeration. *)
Definition fn_table : list fnr :=
  [Fuminus; Fuplus; Flog; Fln; Fnot; Fexpn; Fmax; Fmin; Fsin; Fcos; Facos; Fasin; Ftan; Fatan; Ftanh; Fsinh;
   Fcosh; Fabs; Fsqrt; Fint; Frad; Fif; Flsum; Flmean; Fisan; Flcount; Flprod; Fsign; Flstderr; Frandom;
   Ffloor; Fceil; Fround; Furandom; Fgrandom; Fgamma; Fdiv0].
Definition op_table : list opr :=
  [Oor; Oand; Oge; Ogt; Ole; Olt; Oeq; One; Oplus; Ominus; Odivide; Otimes; Oexp].
Definition tfn_table : list tfnr :=
  [Flag; Fdiff; Frapp; Fdln; Fgrt; Fmavg; Fvmax; Fvmin; Fsum; Fprod; Fmean; Fstderr; Fdlag; Flastobs].
Definition val_table : list valr := [Vpi; Ve; Vtime; Vi; Veuro].
Definition mtfn_table : list mtfnr :=
  [Fcorr; Fcovar; Fcovar0; Fvariance; Fstddev; Findex; Facf; Finterpol; Fapp; Fhp; Fdapp; Fhpstd].

Definition fn_code (f : fnr) : Z :=
  match f with
  | Fuminus => 30 | Fuplus => 31 | Flog => 32 | Fln => 33 | Fnot => 34 | Fexpn => 35 | Fmax => 36 | Fmin => 37
  | Fsin => 38 | Fcos => 39 | Facos => 40 | Fasin => 41 | Ftan => 42 | Fatan => 43 | Ftanh => 44 | Fsinh => 45
  | Fcosh => 46 | Fabs => 47 | Fsqrt => 48 | Fint => 49 | Frad => 50 | Fif => 51 | Flsum => 52 | Flmean => 53
  | Fisan => 54 | Flcount => 55 | Flprod => 56 | Fsign => 57 | Flstderr => 58 | Frandom => 59 | Ffloor => 60
  | Fceil => 61 | Fround => 62 | Furandom => 63 | Fgrandom => 64 | Fgamma => 65 | Fdiv0 => 66
  end.
Definition op_code (o : opr) : Z :=
  match o with
  | Oor => 70 | Oand => 71 | Oge => 72 | Ogt => 73 | Ole => 74 | Olt => 75 | Oeq => 76 | One => 77
  | Oplus => 78 | Ominus => 79 | Odivide => 80 | Otimes => 81 | Oexp => 82
  end.
Definition tfn_code (f : tfnr) : Z :=
  match f with
  | Flag => 100 | Fdiff => 101 | Frapp => 102 | Fdln => 103 | Fgrt => 104 | Fmavg => 105 | Fvmax => 106
  | Fvmin => 107 | Fsum => 108 | Fprod => 109 | Fmean => 110 | Fstderr => 111 | Fdlag => 112 | Flastobs => 113
  end.
Definition val_code (v : valr) : Z :=
  match v with Vpi => 120 | Ve => 121 | Vtime => 122 | Vi => 123 | Veuro => 124 end.
Definition mtfn_code (f : mtfnr) : Z :=
  match f with
  | Fcorr => 140 | Fcovar => 141 | Fcovar0 => 142 | Fvariance => 143 | Fstddev => 144 | Findex => 145 | Facf => 146
  | Finterpol => 147 | Fapp => 148 | Fhp => 149 | Fdapp => 150 | Fhpstd => 151
  end.
Definition L_EOE := 10. Definition L_VAR := 13. Definition L_COEF := 14. Definition L_PERIOD := 19.
Definition L_VART := 20. Definition L_LCONST := 22. Definition L_DCONST := 23.

(** [L_NAMES]: names in order of first occurrence, l_compile.cpp:66-96. *)
Fixpoint index_of (x : str) (l : list str) (i : Z) : option Z :=
  match l with [] => None | y :: l' => if str_eqb x y then Some i else index_of x l' (i + 1) end.
Definition add_name (names : list str) (n : str) : list str :=
  match index_of n names 0 with Some _ => names | None => names ++ [n] end.
Definition atom_name (a : atom) : list str :=
  match a with A_COEF n => [n] | A_VAR n _ _ => [n] | _ => [] end.
Definition names_of (l : list atom) : list str := fold_left add_name (flat_map atom_name l) [].
Definition pos_of (names : list str) (n : str) : Z := match index_of n names 0 with Some i => i | None => -1 end.

(** memcpy of a Period; the padding bytes are unspecified in C++, zero here (they are never read). *)
Definition period_bytes (p : period) : list Z := le 8 (year p) ++ le 8 (step p) ++ [code (per p)] ++ [0; 0; 0; 0; 0; 0; 0].

(** Own size of an element, that is [get_length()] less [len_args]: l_value.h:45-48, 91-94, 139-142, 233-240,
    301-304; l_common.h:214-218; l_exec_fns.h:228-231; l_exec_ops.h:109-112; l_exec_val.h; l_exec_tfn.h:155-160;
    l_exec_mtfn.h:171-176. *)
Definition own_size (a : atom) : Z :=
  match a with
  | A_REAL _ => 9 | A_LONG _ => 9 | A_COEF _ => 5 | A_VAR _ _ _ => 33 | A_PERIOD _ => 27
  | A_OPENP => 0 | A_CLOSEP => 0 | A_EOE => 1 | A_OP _ => 1 | A_F (FN _) _ => 2 | A_F (TFN _) _ => 4
  | A_F (MTFN _) _ => 5 | A_VAL _ => 1
  end.
(** api/lec/lec.h:92-117 [calculate_length]: the sum is kept in a short. *)
Definition calc_length (l : list atom) : Z := to_short (fold_left (fun s a => s + own_size a) l 0).

Section Encode.
(** 8 bytes of the double obtained from the text of a real constant (strtod, then cast to float and back). *)
Variable real_bytes : str -> list Z.
Variable names : list str.

(** l_exec_mtfn.h:132-167: insertion of the header and of the length of each sub-expression; [lens] starts
    with the last argument. The copy loops move disjoint or upward overlapping zones, from the last byte to
    the first: they insert bytes. None: an argument starts before the buffer. *)
Fixpoint insert_lens (lens : list Z) (buf : list Z) : option (list Z) :=
  match lens with
  | [] => Some []
  | n :: lens' =>
    let k := (length buf - Z.to_nat n)%nat in
    if Z.of_nat (length buf) <? n then None
    else
      match insert_lens lens' (firstn k buf) with
      | Some r => Some (r ++ le 2 n ++ skipn k buf)
      | None => None
      end
  end.
Fixpoint sumZ (l : list Z) : Z := match l with [] => 0 | x :: l' => x + sumZ l' end.
Definition take_before (lens : list Z) (buf : list Z) : list Z :=
  firstn (length buf - Z.to_nat (sumZ lens))%nat buf.

(** l_exec_mtfn.h:116-131 and k_lec.cpp:229-252: lengths of the [nv] last arguments, last one first. *)
Fixpoint arg_lengths (nv : nat) (rprev : list atom) : res (list Z) :=
  match nv with
  | O => Ok []
  | S nv' =>
    match sub_count rprev 0 0 with
    | None => UB
    | Some n =>
      let len := calc_length (firstn n rprev) in
      if len <? 0 then Throw
      else do ls <- arg_lengths nv' (skipn n rprev); Ok (len :: ls)
    end
  end.

(** One element appended to the buffer: k_lec.cpp:196-256 and the [add_to_buffer] methods. [rprev]: elements
    before it, last first. *)
Definition emit_atom (a : atom) (rprev : list atom) (buf : list Z) : res (list Z) :=
  match a with
  | A_REAL s => Ok (buf ++ L_DCONST :: real_bytes s)
  | A_LONG n => Ok (buf ++ L_LCONST :: le 8 n)
  | A_COEF n => Ok (buf ++ L_COEF :: le 4 (pos_of names n))
  | A_VAR n lag p => Ok (buf ++ L_VAR :: le 4 (pos_of names n) ++ le 2 lag ++ le 2 0 ++ period_bytes p)
  | A_PERIOD p => Ok (buf ++ L_PERIOD :: period_bytes p ++ le 2 0)
  | A_OPENP | A_CLOSEP => Ok buf
  | A_EOE => Ok buf
  | A_OP o => Ok (buf ++ [op_code o])
  | A_VAL v => Ok (buf ++ [val_code v])
  | A_F (FN f) nb => Ok (buf ++ [fn_code f; nb])
  | A_F (TFN f) nb =>
    match sub_count rprev 0 0 with
    | None => UB
    | Some n =>
      let len := calc_length (firstn n rprev) in
      if (len <? 0) || (Z.of_nat (length buf) <? len) then Throw
      else
        let k := (length buf - Z.to_nat len)%nat in
        Ok (firstn k buf ++ [tfn_code f; nb] ++ le 2 len ++ skipn k buf)
    end
  | A_F (MTFN f) nb =>
    let nv := Z.to_nat (min_args (MTFN f)) in
    do lens <- arg_lengths nv rprev;
    match insert_lens lens (skipn (length buf - Z.to_nat (sumZ lens)) buf) with
    | None => UB
    | Some r =>
      if Z.of_nat (length buf) <? sumZ lens then UB
      else
        Ok (take_before lens buf ++
            [mtfn_code f; nb; Z.of_nat nv] ++ le 2 (sumZ lens + 2 * Z.of_nat nv) ++ r)
    end
  end.

(** k_lec.cpp:181-278 [CLEC::initialize]. *)
Fixpoint emit_all (l : list atom) (rprev : list atom) (buf : list Z) : res (list Z) :=
  match l with
  | [] => Ok buf
  | A_EOE :: _ => Ok buf
  | a :: l' => do buf' <- emit_atom a rprev buf; emit_all l' (a :: rprev) buf'
  end.
Definition encode (l : list atom) : res (list Z) :=
  do buf <- emit_all l [] []; match buf with [] => Throw | _ => Ok buf end.
End Encode.

(** One decoded instruction. [len]: size in bytes of the sub-expressions stored behind a time function. *)
Inductive instr :=
| I_REAL (bytes : list Z) | I_LONG (n : Z) | I_COEF (pos : Z) | I_VAR (pos lag ref : Z) (p : period)
| I_PERIOD (p : period) (pos : Z) | I_FN (f : fnr) (nb : Z) | I_OP (o : opr) | I_TFN (f : tfnr) (nb len : Z)
| I_VAL (v : valr) | I_MTFN (f : mtfnr) (nb nv len : Z)
| I_OTHER | I_INVALID.

Definition take (n : nat) (buf : list Z) : res (list Z) :=
  if (length buf <? n)%nat then UB else Ok (firstn n buf).
Definition read_period (b : list Z) : period :=
  mkP (signed_le (firstn 8 b)) (signed_le (firstn 8 (skipn 8 b))) (chr (nth 16 b 0)).
Definition tab {A} (t : list A) (i : Z) (f : A -> instr) : res instr :=
  match nth_error t (Z.to_nat i) with Some x => Ok (f x) | None => UB end.   (* beyond the C table *)

(** The decoding constructors: l_value.h:18-25, 64-71, 110-116, 165-177, 259-268; l_exec_fns.h:210-218;
    l_exec_ops.h:94-102; l_exec_val.h; l_exec_tfn.h:106-117; l_exec_mtfn.h:107-121. Result: the instruction and
    its size without its sub-expressions. *)
Definition fetch (buf : list Z) : res (instr * Z) :=
  match buf with
  | [] => UB
  | ty :: _ =>
    if ty =? L_LCONST then do b <- take 9 buf; Ok (I_LONG (signed_le (skipn 1 b)), 9)
    else if ty =? L_DCONST then do b <- take 9 buf; Ok (I_REAL (skipn 1 b), 9)
    else if ty =? L_COEF then do b <- take 5 buf; Ok (I_COEF (signed_le (skipn 1 b)), 5)
    else if ty =? L_PERIOD then
      do b <- take 27 buf; Ok (I_PERIOD (read_period (skipn 1 b)) (signed_le (skipn 25 b)), 27)
    else if (ty =? L_VAR) || (ty =? L_VART) then
      do b <- take 33 buf;
      Ok (I_VAR (signed_le (firstn 4 (skipn 1 b))) (signed_le (firstn 2 (skipn 5 b)))
                (signed_le (firstn 2 (skipn 7 b))) (read_period (skipn 9 b)), 33)
    else if (30 <=? ty) && (ty <=? 69) then
      do b <- take 2 buf; do i <- tab fn_table (ty - 30) (fun f => I_FN f (nth 1 b 0)); Ok (i, 2)
    else if (70 <=? ty) && (ty <=? 99) then do i <- tab op_table (ty - 70) I_OP; Ok (i, 1)
    else if (100 <=? ty) && (ty <=? 119) then
      do b <- take 4 buf;
      do i <- tab tfn_table (ty - 100) (fun f => I_TFN f (nth 1 b 0) (signed_le (skipn 2 b))); Ok (i, 4)
    else if (120 <=? ty) && (ty <=? 139) then do i <- tab val_table (ty - 120) I_VAL; Ok (i, 1)
    else if 140 <=? ty then
      do b <- take 5 buf;
      do i <- tab mtfn_table (ty - 140) (fun f => I_MTFN f (nth 1 b 0) (nth 2 b 0) (signed_le (skipn 3 b))); Ok (i, 5)
    else if (10 <=? ty) && (ty <? 29) then Ok (I_OTHER, 1)
    else Ok (I_INVALID, 1)
  end.
