(** C23: packed objects are read back unchanged. *)
From Coq Require Import ZArith List Bool Lia.
From Verif Require Import M_Base M_Bytes M_Pack S_Pack L_Pack2.
Import ListNotations.
Open Scope Z_scope.

(** Any sequence of blocks, whatever the stale content of the global buffer: each block is read back
    at its 4-byte aligned place, with 1 to 4 bytes of padding, and the lengths are consistent.
    [sz] is the size of a [long]. *)
Theorem C23_packs_are_read_back : forall sz l, sz = 4%nat \/ sz = 8%nat ->
  Forall sound l -> pack_size (Z.of_nat sz) l < 2 ^ 31 ->
  exists buf, pack_of sz l = Ok buf /\
    Z.of_nat (length buf) = pack_size (Z.of_nat sz) l /\
    P_nb sz buf = Ok (Z.of_nat (length l)) /\
    P_get_len sz buf (-1) = Ok (pack_size (Z.of_nat sz) l) /\
    (forall k a, nth_error l k = Some a ->
       let o := Z.of_nat sz * (2 + 2 * ((Z.of_nat (length l) + 1) / 2)) + rooms (firstn k l) in
       P_get_ptr sz buf (Z.of_nat k) = Ok (Some o) /\ o mod 4 = 0 /\
       P_get_len sz buf (Z.of_nat k) = Ok (room (snd (fst a))) /\
       firstn (length (wanted a)) (skipn (Z.to_nat o) buf) = wanted a /\
       exists pad, P_alloc_get_ptr sz buf (Z.of_nat k) = Ok (Some (wanted a ++ pad))) /\
    (forall i, i < 0 \/ Z.of_nat (length l) <= i -> P_get_ptr sz buf i = Ok None).
Proof. intros sz l H. exact (pack_ok sz H l). Qed.
Print Assumptions C23_packs_are_read_back.

Definition C23_blocks : list addition :=
  [(Some [65; 65; 65; 65; 65; 0], 6, repeat 7 20); (None, 3, repeat 9 8); (Some [66; 0], 2, repeat 7 20);
   (Some [], 0, [1; 2; 3; 4])].
Example C23_ex : Forall sound C23_blocks /\ pack_size 8 C23_blocks < 2 ^ 31 /\
  pack_of 8 C23_blocks =
    Ok (le 8 68 ++ le 8 4 ++ le 8 48 ++ le 8 56 ++ le 8 60 ++ le 8 64 ++
        [65; 65; 65; 65; 65; 0; 0; 0] ++ [0; 0; 0; 0] ++ [66; 0; 7; 7] ++ [1; 2; 3; 4]).
Proof. split; [repeat constructor; cbn; lia|]. split; reflexivity. Qed.

(** The documentation (pack.cpp:22-24) says that a pack holds 4-byte integers whatever the machine:
    packs of the two sizes of [long] differ. *)
Theorem C23_depends_on_the_machine_refuted :
  exists l, Forall sound l /\ pack_of 4 l <> pack_of 8 l.
Proof. exists C23_blocks. split; [apply C23_ex|]. vm_compute. discriminate. Qed.
Print Assumptions C23_depends_on_the_machine_refuted.
