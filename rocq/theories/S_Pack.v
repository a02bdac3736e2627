(** What a user of packs relies on. *)
From Coq Require Import ZArith List Bool Lia.
From Verif Require Import M_Base M_Pack.
Import ListNotations.
Open Scope Z_scope.

(** The bytes that the [i]-th addition asks to store. *)
Definition wanted (a : addition) : list Z :=
  match a with ((Some x, lg), _) => firstn (Z.to_nat lg) x | ((None, lg), _) => repeat 0 (Z.to_nat lg) end.
(** The caller gives at least the announced number of bytes; the global buffer is large enough. *)
Definition sound (a : addition) : Prop :=
  let '(d, lg, junk) := a in
  0 <= lg /\ match d with Some x => lg <= Z.of_nat (length x) | None => True end /\
  lg + 4 <= Z.of_nat (length junk).
(** Room used by an addition: its bytes, then 1 to 4 bytes up to a multiple of 4. *)
Definition room (lg : Z) : Z := 4 * (lg / 4 + 1).
Definition rooms (l : list addition) : Z := fold_right (fun a s => room (snd (fst a)) + s) 0 l.
(** Total length: two integers, one position per element (an even number of them), the elements. *)
Definition pack_size (szZ : Z) (l : list addition) : Z :=
  szZ * (2 + 2 * ((Z.of_nat (length l) + 1) / 2)) + rooms l.
