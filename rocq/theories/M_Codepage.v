(** Model of api/utils/utils.h:103-168: conversion of texts between the OEM code page of the files (CP850) and the
    UTF-8 of the interface, as the Linux build does it with iconv.

    - [iconv] is the conversion of glibc between "CP850" and "UTF-8": one byte of CP850 is one character, the 128
      characters above ASCII are in [cp850]; a character that is not in the code page, or bytes that are not UTF-8,
      make [iconv] fail, and the function throws.
    - The input is read up to its first NUL ([strlen]); an empty input is returned as it is (104-105). *)
From Coq Require Import ZArith Ascii String List Bool Lia.
From Verif Require Import M_Base M_Names M_Lex.
Import ListNotations.
Open Scope Z_scope.

(** The Unicode characters of the bytes 128 to 255 of CP850. *)
Definition cp850 : list Z :=
  [199; 252; 233; 226; 228; 224; 229; 231; 234; 235; 232; 239; 238; 236; 196; 197;
   201; 230; 198; 244; 246; 242; 251; 249; 255; 214; 220; 248; 163; 216; 215; 402;
   225; 237; 243; 250; 241; 209; 170; 186; 191; 174; 172; 189; 188; 161; 171; 187;
   9617; 9618; 9619; 9474; 9508; 193; 194; 192; 169; 9571; 9553; 9559; 9565; 162; 165; 9488;
   9492; 9524; 9516; 9500; 9472; 9532; 227; 195; 9562; 9556; 9577; 9574; 9568; 9552; 9580; 164;
   240; 208; 202; 203; 200; 305; 205; 206; 207; 9496; 9484; 9608; 9604; 166; 204; 9600;
   211; 223; 212; 210; 245; 213; 181; 254; 222; 218; 219; 217; 253; 221; 175; 180;
   173; 177; 8215; 190; 182; 167; 247; 184; 176; 168; 183; 185; 179; 178; 9632; 160].

(** UTF-8 of a character below 65536. *)
Definition utf8_char (u : Z) : str :=
  if u <? 128 then [chr u]
  else if u <? 2048 then [chr (192 + u / 64); chr (128 + u mod 64)]
  else [chr (224 + u / 4096); chr (128 + (u / 64) mod 64); chr (128 + u mod 64)].

(** A C string: the bytes before the first NUL. *)
Fixpoint cstr (s : str) : str := match s with [] => [] | c :: s' => if code c =? 0 then [] else c :: cstr s' end.

Definition oem_char (c : ascii) : str :=
  if code c <? 128 then [c] else utf8_char (nth (Z.to_nat (code c - 128)) cp850 0).

(** utils.h:159-162 [oem_to_utf8]. *)
Definition oem_to_utf8 (s : str) : str := flat_map oem_char (cstr s).

Fixpoint strip_prefix (p s : str) : option str :=
  match p, s with
  | [], _ => Some s
  | x :: p', y :: s' => if ascii_eqb x y then strip_prefix p' s' else None
  | _ :: _, [] => None
  end.

(** One character of UTF-8 outside ASCII: its byte in the code page and the rest of the text. *)
Fixpoint find_char (table : list Z) (byte : Z) (s : str) : option (ascii * str) :=
  match table with
  | [] => None
  | u :: table' =>
    match strip_prefix (utf8_char u) s with
    | Some r => Some (chr byte, r)
    | None => find_char table' (byte + 1) s
    end
  end.

Fixpoint to_oem (fuel : nat) (s : str) : res str :=
  match fuel, s with
  | _, [] => Ok []
  | O, _ => UB
  | S f, c :: s' =>
    if code c <? 128 then do t <- to_oem f s'; Ok (c :: t)
    else match find_char cp850 128 s with
         | Some (b, r) => do t <- to_oem f r; Ok (b :: t)
         | None => Throw
         end
  end.

(** utils.h:164-167 [utf8_to_oem]. *)
Definition utf8_to_oem (s : str) : res str := let t := cstr s in to_oem (length t) t.
