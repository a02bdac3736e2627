(** Vocabulary of the statements on databases. *)
From Coq Require Import ZArith Ascii String List Bool Lia.
From Verif Require Import M_Base M_Names M_Lex S_Names M_Kdb.
Import ListNotations.
Open Scope Z_scope.

Section W.
Context {T : Type}.
Variable ty : otype.
Notation world := (world T).
Notation op := (op T).

(** Database [d] holds the object at address [p]. *)
Definition owns (w : world) d p := exists k, In (k, p) (objs (get_db w d)).
(** The database that [d] is a view of: its parent for a subset, itself otherwise. *)
Definition family (w : world) d := if is_subset (kind (get_db w d)) then up (get_db w d) else d.
(** [c] is a subset that its parent [t] still knows. *)
Definition subset_of (w : world) c t := In c (kids (get_db w t)).

(** The databases a call may modify. *)
Definition acts_on (w : world) (o : op) (d : nat) : Prop :=
  match o with
  | New | Subset _ _ _ => False
  | Set_ x _ _ | SetPtr x _ _ | Add x _ _ | Update x _ _ | Remove x _ | Rename x _ _ _ 
  | Duplicate x _ _ _ | Clear x | Drop x => d = x
  | Merge x y _ c => d = x \/ (c = true /\ d = y)
  | Write p _ => owns w d p
  end.
(** No call of the history modifies a database of the family of [e]. *)
Fixpoint avoids (e : nat) (w : world) (ops : list op) : Prop :=
  match ops with
  | [] => True
  | o :: r => (forall d, acts_on w o d -> family w d <> family w e) /\ avoids e (fst (step ty w o)) r
  end.

(** The names a call mentions. *)
Definition names_of (o : op) : list str :=
  match o with
  | Set_ _ n _ | SetPtr _ n _ | Add _ n _ | Update _ n _ | Remove _ n => [n]
  | Rename _ a b _ | Duplicate _ _ a b => [a; b]
  | _ => []
  end.
Definition mentions (ops : list op) : list str := flat_map names_of ops.
(** No two of these names differ only by letter case; this matters for comments only. *)
Definition steady_case (names : list str) : Prop :=
  ty = COMMENTS ->
  forall a b, In a names -> In b names -> same_but_case (trim a) (trim b) -> trim a = trim b.

(** The object that database [d] holds under key [k]. *)
Definition lookup (w : world) (d : nat) (k : str) : option T :=
  match find k (objs (get_db w d)) with Some p => nth_error (heap w) p | None => None end.

(** Histories of a program that makes no subset and does not touch objects through pointers;
    a workspace is not merged into itself, nor an object duplicated onto itself. *)
Definition plain (o : op) : Prop :=
  match o with
  | SetPtr _ _ _ | Subset _ _ _ | Drop _ | Write _ _ => False
  | Merge d e _ _ => d <> e
  | Duplicate d e a b => d <> e \/ key_of ty a <> key_of ty b \/ a = b
  | _ => True
  end.
(** A finite map per workspace. *)
Record store := mkS { count : nat; held : nat -> str -> option T }.
Definition bind_key (h : nat -> str -> option T) (d : nat) (k : str) (v : option T) : nat -> str -> option T :=
  fun d' k' => if Nat.eqb d' d && str_eqb k' k then v else h d' k'.
Definition valid (k : str) : bool := match check_name k ty with Ok _ => true | _ => false end.
Definition may_rename : bool := match ty with EQUATIONS => false | _ => true end.
Definition here (s : store) (d : nat) : bool := Nat.ltb d (count s).
Definition is_some {A} (o : option A) : bool := match o with Some _ => true | None => false end.
(** What each call should do to it; a call that does not apply leaves it unchanged. *)
Definition spec_step (s : store) (o : op) : store :=
  let h := held s in
  let K := key_of ty in
  let when (b : bool) h' := if b then mkS (count s) h' else s in
  match o with
  | New => mkS (S (count s)) h
  | Set_ d n v => when (here s d && valid (K n)) (bind_key h d (K n) (Some v))
  | Add d n v => when (here s d && valid (K n) && negb (is_some (h d (K n)))) (bind_key h d (K n) (Some v))
  | Update d n v => when (here s d && is_some (h d (K n))) (bind_key h d (K n) (Some v))
  | Remove d n => when (here s d) (bind_key h d (K n) None)
  | Rename d a b ow =>
      when (here s d && may_rename && valid (K b) && is_some (h d (K a)) && (ow || negb (is_some (h d (K b)))))
         (bind_key (bind_key h d (K a) None) d (K b) (h d (K a)))
  | Merge d e ow c =>
      when (here s d && here s e)
         (fun x k => if Nat.eqb x d then
                       (if is_some (h e k) && (ow || negb (is_some (h d k))) then h e k else h d k)
                     else if Nat.eqb x e && c then None else h x k)
  | Duplicate d e a b =>
      when (here s d && here s e && valid (K b) && is_some (h e (K a))) (bind_key h d (K b) (h e (K a)))
  | Clear d => when (here s d) (fun x k => if Nat.eqb x d then None else h x k)
  | _ => s
  end.
Definition spec_run (ops : list op) : store := fold_left spec_step ops (mkS 0 (fun _ _ => None)).
End W.

Section V.
Context {T : Type}.
(** A call that is not a rename onto a name that may be taken. *)
Definition gentle (o : op T) : Prop := match o with Rename _ _ _ ow => ow = false | _ => True end.
(** Calls that store, change or delete one object, or take a subset. *)
Definition single (o : op T) : Prop := match o with Merge _ _ _ _ | Duplicate _ _ _ _ => False | _ => True end.
(** The database itself or one of its subsets. *)
Definition view (w : world T) (t e : nat) : Prop := e = t \/ subset_of w e t.
(** The names a selection keeps. *)
Definition selected (sel : selection) (k : str) : bool :=
  match sel with Nothing => false | All => true | Matching f => f k end.
End V.
