(** What a user of the binary files relies on. *)
From Coq Require Import ZArith Ascii String List Bool Lia Sorted.
From Verif Require Import S_Time M_Base M_Names M_Lex M_Kdb M_Time M_Bytes M_Pack M_Codepage M_Ascii M_Binary M_Objects.
Import ListNotations.
Open Scope Z_scope.

(** A text without the character NUL. *)
Definition clean (s : str) : Prop := Forall (fun c => code c <> 0) s.
(** The characters of a text; the text is their UTF-8. *)
Definition spelled (l : list Z) : str := flat_map utf8_char l.
(** The characters of the code page CP850. *)
Definition known (u : Z) : Prop := 0 < u < 128 \/ In u cp850.
Definition in_codepage (s : str) : Prop := exists l, Forall known l /\ s = spelled l.
Definition ascii_text (s : str) : Prop := Forall (fun c => 0 < code c < 128) s.

(** gzip gives back what it was given.  (The bytes of a file are integers; any compression of bytes extends to a
    function that meets this on other integers.) *)
Definition lossless (e : env) : Prop :=
  forall b, lenZ b < 2 ^ 40 -> gunz e (gz e b) = Some b /\ 0 < lenZ (gz e b) < 2 ^ 62.

Definition name_ok (n : str) : Prop := clean n /\ (length n <= 20)%nat.
(** A sample that the header of the file can hold; the code takes a zero in its first byte, which is the year modulo
    256, for the lack of a sample. *)
Definition sample_fits (s : sample) : Prop :=
  sample_ok s /\ 0 < year (s_start s) < 2 ^ 31 /\ 0 < year (s_end s) < 2 ^ 31 /\ year (s_start s) mod 256 <> 0.

(** A database of this machine whose objects meet [P]. *)
Definition storable {V} (P : str -> V -> Prop) (d : kdb V) : Prop :=
  k_arch d = ARCH /\ -32768 <= k_mode d < 32768 /\
  clean (k_desc d) /\ (length (k_desc d) < 64)%nat /\
  k_objs d <> [] /\ Z.of_nat (length (k_objs d)) < 2 ^ 31 /\
  StronglySorted (fun a b => str_ltb a b = true) (map fst (k_objs d)) /\
  Forall (fun x => name_ok (fst x) /\ P (fst x) (snd x)) (k_objs d).

(** Comments and lists: texts of the code page. *)
Definition text_ok (name : str) (s : str) : Prop := in_codepage s /\ Z.of_nat (length s) < 2 ^ 30.
(** Identities: formulas that compile, in both encodings. *)
Definition identity_ok (e : env) (name : str) (s : str) : Prop :=
  s <> [] /\ text_ok name s /\ compiles e s = true /\ (forall t, utf8_to_oem s = Ok t -> compiles e t = true).
(** Doubles are words of 64 bits. *)
Definition word (w : Z) : Prop := 0 <= w < 2 ^ 64.
Definition scalar_ok (name : str) (v : bscalar) : Prop := word (b_value v) /\ word (b_relax v) /\ word (b_std v).
Definition variable_ok (nb : Z) (name : str) (v : list Z) : Prop := Z.of_nat (length v) = nb /\ Forall word v.
(** Equations: the estimation sample, if any, has years of four digits. *)
Definition eq_sample_ok (s : sample) : Prop :=
  s = no_sample \/
  (sample_ok s /\ 1000 <= year (s_start s) <= 9999 /\ 1000 <= year (s_end s) <= 9999 /\ year (s_start s) mod 256 <> 0).
Definition equation_ok (e : env) (name : str) (q : equation) : Prop :=
  q_lec q <> [] /\ text_ok name (q_lec q) /\ eq_compiles e name (q_lec q) = true /\
  (forall t, utf8_to_oem (q_lec q) = Ok t -> eq_compiles e name t = true) /\
  -128 <= q_solved q < 128 /\ 0 <= q_method q < 5 /\ eq_sample_ok (q_sample q) /\
  ascii_text (q_comment q) /\ Z.of_nat (length (q_comment q)) < 2 ^ 28 /\
  clean (q_block q) /\ Z.of_nat (length (q_block q)) < 2 ^ 28 /\
  in_codepage (q_instr q) /\ Z.of_nat (length (q_instr q)) < 2 ^ 28 /\ Z.of_nat (length (q_lec q)) < 2 ^ 28 /\
  - 2 ^ 63 <= q_date q < 2 ^ 63 /\ length (q_tests q) = 20%nat /\ Forall (fun w => 0 <= w < 2 ^ 32) (q_tests q).

(** Saving succeeds, and loading the file, whatever the database held, gives the same description, sample and objects. *)
Definition round_trip {V} (cd : codec V) (e : env) (compress : bool) (d : kdb V) : Prop :=
  exists file, save cd e compress d = (Returned true, Some file) /\
  forall d0, exists d1, load cd e file d0 = (Returned true, d1) /\
    k_desc d1 = k_desc d /\ k_smpl d1 = k_smpl d /\ k_objs d1 = k_objs d /\ k_arch d1 = k_arch d /\ k_mode d1 = k_mode d.

(** No strict prefix of the file is accepted, and nothing of it stays in the database. *)
Definition truncation_seen {V} (cd : codec V) (e : env) (compress : bool) (d : kdb V) : Prop :=
  forall file n d0, save cd e compress d = (Returned true, Some file) -> (n < length file)%nat ->
  exists d1, (load cd e (firstn n file) d0 = (Returned false, d1) \/ load cd e (firstn n file) d0 = (Threw, d1)) /\
    k_objs d1 = [].

(** Loading a list of names gives these objects. *)
Definition among (l : list str) (n : str) : bool := existsb (str_eqb n) l.
Definition selection_loads {V} (cd : codec V) (e : env) (d : kdb V) (names : list str) : Prop :=
  forall file d0, save cd e false d = (Returned true, Some file) -> k_objs d0 = [] -> k_smpl d0 = None ->
  exists d1, load_binary cd e names file d0 = (Returned true, d1) /\
    k_desc d1 = k_desc d /\ k_smpl d1 = k_smpl d /\ k_objs d1 = filter (fun x => among names (fst x)) (k_objs d).
