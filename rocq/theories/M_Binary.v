(** Model of api/objs/k_objfile.cpp: saving a database in a binary file and loading it.

    ABI of the 64-bit Linux build: [long] and [OSIZE] 8 bytes, little endian ([INTEL] is defined: the XDR functions
    do nothing), [sizeof(KDB32)] = 344, [sizeof(KOBJ)] = 32, [sizeof(Sample)] = 56.

    - A file is the list of its bytes; a stream open for reading is the list of the bytes that are still to be read
      (the code only moves forwards; a move backwards is [Foreign]).  The name of the file, its extension, the backup
      copy and [filepath] are not modelled: the file has the binary extension of the type.  Writing never fails.
    - The bytes that the code leaves uninitialised or stale (the end of the names table, the padding of a [Sample],
      the end of the elements of a pack) are parameters.
    - gzip is the pair of functions [gz], [gunz] ([None]: [GzipDecodeStr] fails, and the code goes on with a pointer
      that was not set); [gz] includes the 8 bytes of the length that [GzipEncodeStr] puts first.
    - A double is its 64 bits, a float its 32 bits.
    - Files of the versions 4.02 and 5.04 of the objects are [Foreign].
    - Warnings are not modelled. *)
From Coq Require Import ZArith Ascii String List Bool Lia.
From Verif Require Import M_Base M_Names M_Lex M_Kdb M_Time M_Bytes M_Pack M_Codepage M_Ascii.
Import ListNotations.
Open Scope Z_scope.

(** How a call ends: with its boolean result, an exception, undefined behaviour; [Foreign]: outside the model. *)
Inductive ending := Returned (b : bool) | Threw | Undef | Foreign.

(** Bytes of a text, and back. *)
Definition bytes (s : str) : list Z := map code s.
Definition text_of (l : list Z) : str := map chr l.
(** The C string at the start of a field; [None]: there is no NUL in the field. *)
Fixpoint cfield (l : list Z) : option (list Z) :=
  match l with
  | [] => None
  | b :: l' => if b =? 0 then Some [] else option_map (cons b) (cfield l')
  end.
(** [memcmp]. *)
Fixpoint same_bytes (a b : list Z) : bool :=
  match a, b with
  | [], [] => true
  | x :: a', y :: b' => (x =? y) && same_bytes a' b'
  | _, _ => false
  end.
(** Bytes that nobody set. *)
Definition unset (f : nat -> Z) (n : Z) : list Z := map f (seq 0 (Z.to_nat n)).

(** What surrounds the code: gzip, the bytes nobody set, the LEC compiler. *)
Record env := mkEnv {
  gz : list Z -> list Z;
  gunz : list Z -> option (list Z);
  name_junk : str -> nat -> Z;
  smpl_junk : nat -> Z;
  pack_junk : str -> nat -> nat -> Z;
  compiles : str -> bool;
  eq_compiles : str -> str -> bool
}.

(** KDBInfo and KDBTemplate (kdb.h:36-45, 404-410), variables.h [sample]. *)
Record kdb (V : Type) := mkKdb { k_arch : str; k_mode : Z; k_comp : Z; k_desc : str; k_smpl : option sample; k_objs : smap V }.
Arguments mkKdb {V}. Arguments k_arch {V}. Arguments k_mode {V}. Arguments k_comp {V}. Arguments k_desc {V}.
Arguments k_smpl {V}. Arguments k_objs {V}.

(** kdb.h:134-139, 611-660, variables.h:155-165 [clear]. *)
Definition clear {V} (d : kdb V) : kdb V := mkKdb (k_arch d) (k_mode d) 0 [] None [].

(** constants.h:145-155 [IodeType]. *)
Definition type_code (t : otype) : Z :=
  match t with
  | COMMENTS => 0 | EQUATIONS => 1 | IDENTITIES => 2 | LISTS => 3 | SCALARS => 4 | TABLES => 5 | VARIABLES => 6 | OBJECTS => 7
  end.
(** version.h.in:10-16 [ARCH] of the Linux build; the Windows build has "INTEL86 DOS". *)
Definition ARCH : str := S2L "x86_64".
(** objs.h:12-15; the last byte is 26. *)
Definition K_LABEL : list Z := bytes (S2L "KOBJS 564A") ++ [26].
Definition K_LABELS : list Z := bytes (S2L "KOBJS 4.02") ++ [26].
Definition K_LABELD : list Z := bytes (S2L "KOBJS 504d") ++ [26].

(** What [obj_to_binary] does: a pack, [false], an exception, undefined behaviour. *)
Inductive packing := Packed (p : list Z) | Refused | Raised | Overrun.
(** The two functions of a type of objects; [of_pack] has the number of periods of the database; [Done None]: nothing
    is stored. *)
Record codec (V : Type) := mkCodec {
  c_type : otype;
  to_pack : env -> str -> V -> packing;
  of_pack : env -> Z -> str -> list Z -> io (option V)
}.
Arguments mkCodec {V}. Arguments c_type {V}. Arguments to_pack {V}. Arguments of_pack {V}.

Section File.
Context {V : Type}.
Variable cd : codec V.
Variable e : env.

(** ** Saving *)

(** k_objfile.cpp:996-1036 [K_cwrite]: the bytes written. *)
Definition cwrite (method : Z) (buf : list Z) (minlen : Z) : list Z :=
  let len := lenZ buf in
  if (method =? 0) || (len <? minlen) then buf
  else
    let c := gz e buf in
    let clen := lenZ c in
    if (0 <? minlen) && (len <=? clen + 8) then buf else le 8 (- clen) ++ c.

(** A field of [n] bytes set to zero, then [strncpy] of the text, with its own length; [None]: too long. *)
Definition field (n : Z) (s : str) : option (list Z) :=
  if lenZ (bytes s) <=? n then Some (bytes (cstr s) ++ zeros (n - lenZ (bytes (cstr s)))) else None.

(** period.h:20-24, sample.h:7-11: two [Period] (24 bytes each) and a [short]. *)
Definition period_bytes (j : nat -> Z) (p : period) : list Z :=
  le 8 (year p) ++ le 8 (step p) ++ code (per p) :: unset j 7.
Definition sample_bytes (j : nat -> Z) (s : sample) : list Z :=
  period_bytes j (s_start s) ++ period_bytes (fun i => j (7 + i)%nat) (s_end s) ++ le 2 (s_nb s)
  ++ unset (fun i => j (14 + i)%nat) 6.

(** variables.h:104-117 [_predump_], k_objfile.cpp:1069-1073: the 64 bytes of [k_data]. *)
Definition data_field (s : option sample) : list Z :=
  match s with Some x => sample_bytes (smpl_junk e) x ++ zeros 8 | None => zeros 64 end.

(** k_objfile.cpp:1039-1100 [predump], structs_32.h:35-49 [KDB32]. *)
Definition header (comp : Z) (d : kdb V) : option (list Z) :=
  match field 32 (k_arch d), field 64 (k_desc d) with
  | Some arch, Some desc =>
    Some (le 8 0 ++ le 8 (Z.of_nat (length (k_objs d))) ++ le 2 (type_code (c_type cd)) ++ le 2 (k_mode d) ++ arch ++ zeros 32 ++ zeros 64
          ++ desc ++ data_field (k_smpl d) ++ le 1 comp ++ zeros 59 ++ le 8 0)
  | _, _ => None
  end.

(** k_objfile.cpp:32-36, 1165-1174: one entry of the names table; [strcpy] in a field of 21 bytes. *)
Definition kobj (name : str) : list Z :=
  let n := bytes (cstr name) in
  le 8 0 ++ n ++ 0 :: unset (name_junk e name) (23 - lenZ n).
Definition short_name (name : str) : bool := lenZ (bytes (cstr name)) <=? 20.

(** k_objfile.cpp:1191-1215: the objects. *)
Fixpoint save_objects (comp : Z) (l : list (str * V)) : ending * list Z :=
  match l with
  | [] => (Returned true, [])
  | (name, v) :: l' =>
    match to_pack cd e name v with
    | Packed p =>
      match P_get_len 8 p (-1) with
      | Ok len =>
        if (0 <=? len) && (len <=? lenZ p) then
          let (r, f) := save_objects comp l' in (r, cwrite comp (firstZ len p) 20 ++ f)
        else (Undef, [])
      | _ => (Undef, [])
      end
    | Refused => (Returned false, [])
    | Raised => (Threw, [])
    | Overrun => (Undef, [])
    end
  end.

(** k_objfile.cpp:1118-1220 [save_binary]: the end of the call, and the content of the file at that time. *)
Definition save_binary (comp : Z) (d : kdb V) : ending * list Z :=
  match header comp d with
  | None => (Undef, [])
  | Some h =>
    if forallb short_name (map fst (k_objs d)) then
      let table := concat (map kobj (map fst (k_objs d))) in
      let (r, f) := save_objects comp (k_objs d) in
      (r, K_LABEL ++ h ++ cwrite comp table (-1) ++ f)
    else (Undef, [])
  end.

(** k_objfile.cpp:830-915 [save]; [None]: the file is not opened. *)
Definition save (compress : bool) (d : kdb V) : ending * option (list Z) :=
  match k_objs d with
  | [] => (Returned false, None)
  | _ => let (r, f) := save_binary (if compress then 2 else 0) d in (r, Some f)
  end.

(** ** Loading *)

(** k_objfile.cpp:54-58 [kread] of one element of [n] bytes. *)
Definition kread (n : Z) (s : list Z) : option (list Z * list Z) :=
  if (0 <? n) && (n <=? lenZ s) then Some (firstZ n s, skipZ n s) else None.
(** k_objfile.cpp:75-107 [K_read_len]. *)
Definition read_len (s : list Z) : option Z := if 8 <=? lenZ s then Some (signed_le (firstZ 8 s)) else None.

Record head := mkHead { h_nb : Z; h_type : Z; h_mode : Z; h_arch : str; h_desc : str; h_data : list Z; h_comp : Z }.
Definition sub (s : list Z) (off n : Z) : list Z := firstZ n (skipZ off s).
(** k_objfile.cpp:128-228 [_preload_], version 0: [None] when a text has no end. *)
Definition read_head (b : list Z) : option head :=
  match cfield (sub b 20 32), cfield (sub b 148 64) with
  | Some arch, Some desc =>
    let data := sub b 212 64 in
    Some (mkHead (signed_le (firstZ 4 (sub b 8 8))) (signed_le (sub b 16 2)) (signed_le (sub b 18 2)) (text_of arch) (text_of desc)
                 (if nth 0 data 0 =? 0 then zeros 64 else data) (signed_le (sub b 276 1)))
  | _, _ => None
  end.

Definition read_period (b : list Z) : period :=
  mkP (signed_le (firstZ 8 b)) (signed_le (sub b 8 8)) (chr (nth 16 b 0)).
Definition read_sample (b : list Z) : sample :=
  mkS (read_period b) (read_period (skipZ 24 b)) (signed_le (sub b 48 2)).

(** k_objfile.cpp:152-182, 230-248 [preload]: [None] when the type is not the expected one. *)
Definition preload (d : kdb V) (h : head) : option (kdb V) :=
  if h_type h =? type_code (c_type cd) then
    let s := match c_type cd with
             | VARIABLES => if nth 0 (h_data h) 0 =? 0 then k_smpl d else Some (read_sample (h_data h))
             | _ => k_smpl d
             end in
    Some (mkKdb (h_arch h) (h_mode h) (h_comp h) (h_desc h) s (k_objs d))
  else None.

(** k_objfile.cpp:395-461: the names; [NShort]: returns false, [NBad]: undefined behaviour. *)
Inductive rnames := NShort | NBad | Names (l : list str) (rest : list Z).
Fixpoint table_names (nb : nat) (t : list Z) : option (list str) :=
  match nb with
  | O => Some []
  | S n =>
    match cfield (sub t 8 21), table_names n (skipZ 32 t) with
    | Some x, Some l => Some (text_of x :: l)
    | _, _ => None
    end
  end.
Definition K_CHUNCK : Z := 65536.
Definition read_names (comp nb : Z) (s : list Z) : rnames :=
  if nb <? 0 then NBad
  else if comp =? 0 then
    if 32 * nb <=? lenZ s
    then match table_names (Z.to_nat nb) (firstZ (32 * nb) s) with Some l => Names l (skipZ (32 * nb) s) | None => NBad end
    else NShort
  else
    match read_len s with
    | None => NShort
    | Some len =>
      match kread 8 s with
      | None => NShort
      | Some (_, s1) =>
        match kread (- len) s1 with
        | None => NShort
        | Some (c, s2) =>
          match gunz e c with
          | None => NBad
          | Some t =>
            if lenZ t <=? 32 * ((nb / K_CHUNCK + 1) * K_CHUNCK)
            then match table_names (Z.to_nat nb) (t ++ zeros (32 * nb - lenZ t)) with Some l => Names l s2 | None => NBad end
            else NBad
          end
        end
      end
    end.

(** k_objfile.cpp:473-500: the bytes of the next object. *)
Inductive rpack := PShort | PBad | Pack (p rest : list Z).
Definition read_pack (s : list Z) : rpack :=
  match read_len s with
  | None => PShort
  | Some len =>
    if len <? 0 then
      match kread 8 s with
      | None => PShort
      | Some (_, s1) =>
        match kread (- len) s1 with
        | None => PShort
        | Some (c, s2) => match gunz e c with None => PBad | Some p => Pack p s2 end
        end
      end
    else match kread len s with None => PShort | Some (p, s1) => Pack p s1 end
  end.

(** variables.h [get_nb_periods]. *)
Definition nb_periods (d : kdb V) : Z := match k_smpl d with Some s => s_nb s | None => 0 end.
Definition store (d : kdb V) (name : str) (v : V) : kdb V :=
  mkKdb (k_arch d) (k_mode d) (k_comp d) (k_desc d) (k_smpl d) (put name v (k_objs d)).

(** k_objfile.cpp:501-504: [binary_to_obj], whose result is not looked at. *)
Definition unpack (d : kdb V) (name : str) (p : list Z) (k : kdb V -> ending * kdb V) : ending * kdb V :=
  match of_pack cd e (nb_periods d) name p with
  | Done (Some v) => k (store d name v)
  | Done None => k d
  | Thrown => (Threw, d)
  | Undefined => (Undef, d)
  | Unmodelled => (Foreign, d)
  end.

(** k_objfile.cpp:465-507: all the objects; [error] clears the database. *)
Fixpoint load_all (d : kdb V) (names : list str) (s : list Z) : ending * kdb V :=
  match names with
  | [] => (Returned true, d)
  | name :: names' =>
    match read_pack s with
    | PShort => (Returned false, clear d)
    | PBad => (Undef, d)
    | Pack p s' => unpack d name p (fun d' => load_all d' names' s')
    end
  end.

(** k_objfile.cpp:251-258 [index_of_name]: the first name that is not before the given one; [None] for -1. *)
Fixpoint lower_bound (names : list str) (name : str) : option nat :=
  match names with
  | [] => None
  | x :: names' => if str_ltb x name then option_map S (lower_bound names' name) else Some O
  end.

(** [kseek] forwards; [None]: the code would move backwards. *)
Definition kseek (n : Z) (s : list Z) : option (list Z) := if n <? 0 then None else Some (skipZ n s).

Inductive rskip := SShort | SBack | Skipped (rest : list Z).
(** k_objfile.cpp:552-563: skips objects one by one. *)
Fixpoint skip_objects (n : nat) (s : list Z) : rskip :=
  match n with
  | O => Skipped s
  | S n' =>
    match read_len s with
    | None => SShort
    | Some len =>
      match kseek (if len <? 0 then - len + 8 else len) s with
      | None => SBack
      | Some s' => skip_objects n' s'
      end
    end
  end.

Definition fixed_size : bool := match c_type cd with VARIABLES | SCALARS => true | _ => false end.

(** k_objfile.cpp:533-613: the objects of the list; [len] is the length read last, [lpos] the place reached. *)
Fixpoint load_some (d : kdb V) (all : list str) (names : list str) (lpos : nat) (len : Z) (s : list Z) : ending * kdb V :=
  match names with
  | [] => (Returned true, d)
  | name :: names' =>
    match lower_bound all name with
    | None => load_some d all names' lpos len s
    | Some pos =>
      let jump :=
        if (k_comp d =? 0) && fixed_size then
          if (lpos <? pos)%nat then match kseek (len * Z.of_nat (pos - lpos)) s with None => SBack | Some s' => Skipped s' end
          else Skipped s
        else skip_objects (pos - lpos) s in
      match jump with
      | SShort => (Returned false, clear d)
      | SBack => (Foreign, d)
      | Skipped s1 =>
        match read_len s1 with
        | None => (Returned false, clear d)
        | Some l0 =>
          let l := if l0 <? 0 then - l0 + 8 else l0 in
          match kread l s1 with
          | None => (Returned false, clear d)
          | Some (p, s2) => unpack d name p (fun d' => load_some d' all names' (S pos) l s2)
          end
        end
      end
    end
  end.

(** k_objfile.cpp:316-361, 463-613: the file after the check of its name; [wanted] is [objs], empty for all. *)
Definition load_binary (wanted : list str) (file : list Z) (d : kdb V) : ending * kdb V :=
  match kread 11 file with
  | None => (Returned false, d)
  | Some (label, s) =>
    if same_bytes label K_LABEL then
      match kread 344 s with
      | None => (Threw, clear d)
      | Some (b, s1) =>
        match read_head b with
        | None => (Undef, d)
        | Some h =>
          match preload d h with
          | None => (Threw, clear d)
          | Some d1 =>
            if str_eqb (k_arch d1) ARCH then
              match read_names (k_comp d1) (h_nb h) s1 with
              | NShort => (Returned false, d1)
              | NBad => (Undef, d1)
              | Names names s2 =>
                match wanted with
                | [] => load_all d1 names s2
                | _ =>
                  if fixed_size then
                    match read_len s2 with
                    | None => (Returned false, clear d1)
                    | Some len => load_some d1 names wanted 0 len s2
                    end
                  else load_some d1 names wanted 0 0 s2
                end
              end
            else (Returned false, d1)
          end
        end
      end
    else if same_bytes label K_LABELS || same_bytes label K_LABELD then (Foreign, d)
    else (Returned false, d)
  end.

(** k_objfile.cpp:644-704 [get_file_type_from_file], 728-768 [load]; a label that is not one of IODE makes the code
    look for an ASCII file, which the extension excludes. *)
Definition load (file : list Z) (d0 : kdb V) : ending * kdb V :=
  let d := clear d0 in
  let label := firstZ 11 file in
  if same_bytes label K_LABEL then
    match kread 344 (skipZ 11 file) with
    | None => (Threw, d)
    | Some (b, _) =>
      match read_head b with
      | None => (Undef, d)
      | Some h => if h_type h =? type_code (c_type cd) then load_binary [] file d else (Returned false, d)
      end
    end
  else if same_bytes label K_LABELS || same_bytes label K_LABELD then (Foreign, d)
  else (Returned false, d).
End File.
