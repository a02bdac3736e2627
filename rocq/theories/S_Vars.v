(** Vocabulary of the statements on variables. *)
From Coq Require Import ZArith Ascii String List Bool Lia.
From Verif Require Import M_Base M_Time M_Names M_Lex M_Compile M_Bytes M_Exec M_Kdb M_Vars S_Kdb.
Import ListNotations.
Open Scope Z_scope.

(** A sample whose recorded number of periods (a C short) is the real one; the constructor makes
    such samples as long as there are at most 32767 periods. *)
Definition real_sample (s : sample) : Prop :=
  0 < s_nb s <= 32767 /\ difference (s_end s) (s_start s) = Ok (s_nb s - 1).

Section S.
Variable A : arith.
Variable tiny : F A.
Notation vworld := (vworld A).
Notation vop := (vop A).

(** Calls that the invariant of variables survives: samples of at most 32767 periods, no [clear] of a
    subset, no overwriting rename while subsets exist. *)
Definition careful (w : vworld) (o : vop) : Prop :=
  let kind_of d := kind (get_db (base A w) d) in
  match o with
  | VClear _ d => kind_of d <> DB_SUBSET
  | VMerge _ _ e _ clear_source => clear_source = true -> kind_of e <> DB_SUBSET
  | VRename _ d _ _ overwrite => overwrite = true -> kids (get_db (base A w) (family (base A w) d)) = []
  | VSample _ _ s | VExtrapolate _ _ _ s _ => real_sample s
  | VPeriods _ _ a b => forall s, make_sample a b = Ok s -> real_sample s
  | _ => True
  end.
Fixpoint careful_run (w : vworld) (ops : list vop) : Prop :=
  match ops with
  | [] => True
  | o :: r => careful w o /\ careful_run (fst (vstep A tiny w o)) r
  end.

(** A workspace is in use and has a sample. *)
Definition has_sample (w : vworld) (d : nat) : Prop := smpl A w d <> None.

(** The variable of that name; its value on a period. *)
Definition var_of (w : vworld) (d : nat) (name : str) : option (list (F A)) :=
  lookup (base A w) d (key_of VARIABLES name).
Definition value_on (w : vworld) (d : nat) (name : str) (q : period) : option (F A) :=
  match smpl A w d, var_of w d name with
  | Some s, Some v => match M_Time.position s q with Ok i => nth_error v (Z.to_nat i) | _ => None end
  | _, _ => None
  end.
(** Two databases show the same objects: a workspace and its subsets. *)
Definition same_data (w : vworld) (d e : nat) : Prop := family (base A w) d = family (base A w) e.

(** The calls that need a sample on a database without one. *)
Definition sampleless (w : vworld) (o : vop) : Prop :=
  match o with
  | KvAdd _ d _ | VExtrapolate _ d _ _ _ => ~ has_sample w d
  | KvMerge _ d e _ => has_sample w d /\ ~ has_sample w e
  | _ => False
  end.

(** The methods of [VariablesInitialization] (variables.h:46-56): when the value [x] of a period is
    kept, and the value it gets otherwise from those of the two preceding periods. *)
Definition kept (m : vinit) (x : F A) : bool :=
  match m with
  | ASIS => true
  | TM1_A | EXTRA_A => false
  | TM1_NA | EXTRA_NA => num A x
  | TM1 | EXTRA => num A x && negb (is_0 A tiny x)
  end.
Definition announced (m : vinit) (x before before2 : F A) : F A :=
  if kept m x then x
  else if negb (num A before) then ofZ A 1
  else match m with
       | EXTRA | EXTRA_A | EXTRA_NA =>
         if num A before2 then sub A (mul A (ofZ A 2) before) before2 else before
       | _ => before
       end.
(** The value of a vector at a position, NA before its start. *)
Definition at_ (v : list (F A)) (t : Z) : F A := if t <? 0 then na A else nth (Z.to_nat t) v (na A).

(** The value that a level [y] with reference value [z] shows in a mode. *)
Definition reference (pernb : Z) (mode : vmode) (v : list (F A)) (t : Z) : option (F A) :=
  if t <? lag_of mode pernb then None
  else let b := at_ v (t - lag_of mode pernb) in
       match mode with
       | LEVEL => Some b
       | DIFF | Y0Y_DIFF => if num A b then Some b else None
       | GROWTH_RATE | Y0Y_GROWTH_RATE => if num A b && negb (is_0 A tiny b) then Some b else None
       end.
(** The level that shows as [x] in a mode. *)
Definition level_for (mode : vmode) (b x : F A) : F A :=
  match mode with
  | LEVEL => x
  | DIFF | Y0Y_DIFF => M_Exec.add A b x
  | GROWTH_RATE | Y0Y_GROWTH_RATE => mul A (M_Exec.add A (ofZ A 1) (dvd A x (ofZ A 100))) b
  end.
End S.
