(** Object databases (workspaces) and their subsets, api/objs/kdb.h.

    A [world] holds all databases of one object type together with the heap of objects the
    [std::shared_ptr<T>] of the databases point to.  Simplifications:
    - warnings ([kwarning]) are only reported through the returned boolean;
    - description, file path and compression flag of a database are left out;
    - [std::set<std::shared_ptr<D>>] of subsets is a list (its order is never observable);
    - the pattern argument of [get_subset] is replaced by the predicate telling which names of the
      database it matches ([filter_names] returns existing names only);
    - reference counts: an object is never freed, a database is destroyed by [Drop];
    - [KDBVariables], which adds a sample to this class, is the subject of M_Vars.v. *)
From Coq Require Import ZArith Ascii String List Bool Lia.
From Verif Require Import M_Base M_Names M_Lex.
Import ListNotations.
Open Scope Z_scope.

(** [std::less<std::string>]: [char_traits<char>::compare] compares bytes as unsigned. *)
Fixpoint str_ltb (a b : str) : bool :=
  match a, b with
  | _, [] => false
  | [], _ :: _ => true
  | x :: a', y :: b' => (code x <? code y) || ((code x =? code y) && str_ltb a' b')
  end.

(** [std::map<std::string, V>] as the list of its entries in iteration order. *)
Section Map.
Context {V : Type}.
Definition smap := list (str * V).
Fixpoint find (k : str) (m : smap) : option V :=
  match m with
  | [] => None
  | (k', v) :: m' => if str_eqb k k' then Some v else find k m'
  end.
Fixpoint put (k : str) (v : V) (m : smap) : smap :=
  match m with
  | [] => [(k, v)]
  | (k', v') :: m' =>
    if str_ltb k k' then (k, v) :: m
    else if str_eqb k k' then (k, v) :: m'
    else (k', v') :: put k v m'
  end.
Fixpoint del (k : str) (m : smap) : smap :=
  match m with
  | [] => []
  | (k', v') :: m' => if str_eqb k k' then m' else (k', v') :: del k m'
  end.
Definition keys (m : smap) : list str := map fst m.
(** [std::distance(begin, find(k))]. *)
Fixpoint position (k : str) (m : smap) : option Z :=
  match m with
  | [] => None
  | (k', _) :: m' => if str_eqb k k' then Some 0 else option_map (Z.add 1) (position k m')
  end.
End Map.
Arguments smap : clear implicits.

(** api/constants.h [IodeDatabaseType]. *)
Inductive dbkind := DB_GLOBAL | DB_STANDALONE | DB_SUBSET.
Definition is_subset (k : dbkind) : bool := match k with DB_SUBSET => true | _ => false end.

(** kdb.h:424-433: [k_db_type], [k_objs], [db_parent] and [children_db]; [alive] is false once the
    database has been destroyed (then [db_parent.lock()] gives a null pointer). *)
Record db := mkDb { kind : dbkind; alive : bool; up : nat; kids : list nat; objs : smap nat }.

Section Kdb.
(** [T]: the objects; [ty]: the object type of the databases. *)
Context {T : Type}.
Variable ty : otype.

Record world := mkW { heap : list T; dbs : list db }.
(** Outcome of a call that returns a boolean (or void = [Ret true]). *)
Inductive out := Ret (b : bool) | Exc.

Definition dead : db := mkDb DB_STANDALONE false 0 [] [].
Definition get_db (w : world) (d : nat) : db := nth d (dbs w) dead.
Fixpoint upd_list {A} (i : nat) (f : A -> A) (l : list A) : list A :=
  match l, i with
  | [], _ => []
  | x :: l', O => f x :: l'
  | x :: l', S i' => x :: upd_list i' f l'
  end.
Definition upd_db (w : world) (d : nat) (f : db -> db) : world :=
  mkW (heap w) (upd_list d f (dbs w)).
Definition set_objs (f : smap nat -> smap nat) (b : db) : db :=
  mkDb (kind b) (alive b) (up b) (kids b) (f (objs b)).
Definition set_kids (f : list nat -> list nat) (b : db) : db :=
  mkDb (kind b) (alive b) (up b) (f (kids b)) (objs b).
Definition set_kind (k : dbkind) (b : db) : db :=
  mkDb k (alive b) (up b) (kids b) (objs b).

(** [std::make_shared<T>(v)]. *)
Definition alloc (w : world) (v : T) : world * nat :=
  (mkW (heap w ++ [v]) (dbs w), length (heap w)).

Definition is_comments : bool := match ty with COMMENTS => true | _ => false end.
Definition key_of (name : str) : str := to_key (mode_of ty) name.

(** kdb.h:726-743 [contains]. *)
Definition contains (b : db) (name : str) : bool :=
  if is_comments then
    existsb (fun k => str_eqb (to_lower k) (to_lower (trim name))) (keys (objs b))
  else match find (key_of name) (objs b) with Some _ => true | None => false end.

(** kdb.h:752-775 [get_key]; the loop over the comments keeps the last match. *)
Definition get_key (b : db) (name : str) : str :=
  if is_comments then
    fold_left (fun acc k => if str_eqb (to_lower k) (to_lower (trim name)) then k else acc)
              (keys (objs b)) []
  else let key := key_of name in if contains b key then key else [].

(** kdb.h:1097-1115 [get_obj_ptr]. *)
Definition get_obj_ptr (b : db) (name : str) : res nat :=
  match get_key b name with
  | [] => Throw
  | key => match find key (objs b) with Some p => Ok p | None => Throw end
  end.

(** kdb.h:714-717 [size], 789-798 [index_of], 803-817 [get_name]. *)
Definition size (b : db) : Z := Z.of_nat (length (objs b)).
Definition index_of (b : db) (name : str) : Z :=
  match position (key_of name) (objs b) with Some i => i | None => -1 end.
Definition get_name (b : db) (i : Z) : res str :=
  if (i <? 0) || (size b <=? i) then Throw else Ok (nth (Z.to_nat i) (keys (objs b)) []).

(** kdb.h:507-533 [get_top_level_db]: [None] stands for the exception. *)
Definition top_of (w : world) (d : nat) : option nat :=
  let b := get_db w d in
  if is_subset (kind b) then (if alive (get_db w (up b)) then Some (up b) else None) else Some d.
(** kdb.h:535-547 [get_children_db]. *)
Definition children (w : world) (d : nat) : list nat :=
  let b := get_db w d in
  if is_subset (kind b) then (if alive (get_db w (up b)) then kids (get_db w (up b)) else []) else kids b.

(** kdb.h:484-504 [set_obj_ptr_no_check]; the last loop goes over [cs]. *)
Definition put_in_children (key : str) (p : nat) (cs : list nat) (w : world) : world :=
  fold_left (fun w c => if contains (get_db w c) key then upd_db w c (set_objs (put key p)) else w) cs w.
Definition set_no_check (w : world) (d : nat) (key : str) (p : nat) : world * out :=
  match top_of w d with
  | None => (w, Exc)
  | Some t =>
    let w1 := upd_db w d (set_objs (put key p)) in
    let w2 := if is_subset (kind (get_db w d)) then upd_db w1 t (set_objs (put key p)) else w1 in
    (put_in_children key p (children w2 d) w2, Ret true)
  end.

(** kdb.h:1118-1180 [set_obj_ptr]; a pointer outside the heap stands for a null pointer. *)
Definition set_obj_ptr (w : world) (d : nat) (name : str) (p : nat) : world * out :=
  let key := key_of name in
  match check_name key ty with
  | Ok _ =>
    match nth_error (heap w) p with
    | None => (w, Exc)
    | Some v =>
      match top_of w d with
      | None => (w, Exc)
      | Some t =>
        let same :=
          match get_obj_ptr (get_db w t) key with Ok q => Nat.eqb q p | _ => false end in
        if same then (w, Ret true)
        else let '(w1, q) := alloc w v in set_no_check w1 d key q
      end
    end
  | _ => (w, Exc)
  end.

(** kdb.h:1194-1202 [set]. *)
Definition set (w : world) (d : nat) (name : str) (v : T) : world * out :=
  let '(w1, p) := alloc w v in set_obj_ptr w1 d name p.

(** kdb.h:777-787 [parent_contains]. *)
Definition parent_contains (w : world) (d : nat) (name : str) : bool :=
  let b := get_db w d in
  is_subset (kind b) && alive (get_db w (up b)) && contains (get_db w (up b)) name.

(** kdb.h:1204-1236 [add]. *)
Definition add (w : world) (d : nat) (name : str) (v : T) : world * out :=
  let key := key_of name in
  match check_name key ty with
  | Ok _ =>
    if contains (get_db w d) key then (w, Exc)
    else if parent_contains w d key then (w, Exc)
    else let '(w1, p) := alloc w v in set_no_check w1 d key p
  | _ => (w, Exc)
  end.

(** kdb.h:1238-1249 [update]. *)
Definition update (w : world) (d : nat) (name : str) (v : T) : world * out :=
  let key := key_of name in
  if contains (get_db w d) key then set w d key v else (w, Exc).

(** kdb.h:889-914 [remove]. *)
Definition remove (w : world) (d : nat) (name : str) : world * out :=
  let key := key_of name in
  match top_of w d with
  | None => (w, Exc)
  | Some t =>
    if contains (get_db w d) key && contains (get_db w t) key then
      let w1 := upd_db w t (set_objs (del key)) in
      (fold_left (fun w c => upd_db w c (set_objs (del key))) (children w1 d) w1, Ret true)
    else (w, Ret false)
  end.

(** kdb.h:840-887 [rename]. *)
Definition rename (w : world) (d : nat) (old new : str) (overwrite : bool) : world * out :=
  let okey := key_of old in
  let nkey := key_of new in
  match ty with
  | EQUATIONS => (w, Exc)
  | _ =>
    match objs (get_db w d) with
    | [] => (w, Ret false)
    | _ =>
      match check_name nkey ty with
      | Ok _ =>
        if negb (contains (get_db w d) okey) then (w, Exc)
        else match top_of w d with
        | None => (w, Exc)
        | Some t =>
          if negb overwrite && contains (get_db w t) nkey then (w, Exc)
          else match get_obj_ptr (get_db w t) okey with
          | Ok p =>
            let move := set_objs (fun m => put nkey p (del okey m)) in
            let w1 := upd_db w t move in
            (fold_left (fun w c => if contains (get_db w c) okey then upd_db w c move else w)
                       (children w1 d) w1, Ret true)
          | _ => (w, Exc)
          end
        end
      | _ => (w, Exc)
      end
    end
  end.

(** kdb.h:613-662 [clear].  The loop of a subset removes the subset from its parent. *)
Definition clear_one (w : world) (d : nat) : world :=
  let b := get_db w d in
  let w1 := if alive (get_db w (up b))
            then upd_db w (up b) (set_kids (filter (fun c => negb (Nat.eqb c d)))) else w in
  upd_db w1 d (set_objs (fun _ => [])).
Definition clear (w : world) (d : nat) : world :=
  let b := get_db w d in
  if is_subset (kind b) then clear_one w d
  else
    let w1 := fold_left (fun w c => upd_db (clear_one w c) c (set_kind DB_STANDALONE)) (kids b) w in
    upd_db (upd_db w1 d (set_kids (fun _ => []))) d (set_objs (fun _ => [])).

(** kdb.h:925-930 [copy_obj_from]. *)
Definition copy_obj_from (w : world) (d e : nat) (sk dk : str) : world * out :=
  match get_obj_ptr (get_db w e) sk with
  | Ok p => set_obj_ptr w d dk p
  | _ => (w, Exc)
  end.

(** A loop whose body may throw: the state reached is kept. *)
Fixpoint each (l : list str) (f : world -> str -> world * out) (w : world) : world * out :=
  match l with
  | [] => (w, Ret true)
  | x :: l' => match f w x with (w1, Exc) => (w1, Exc) | (w1, _) => each l' f w1 end
  end.

(** Databases are created by [D::Create(is_global)]. *)
Definition create (w : world) (k : dbkind) (parent : nat) : world * nat :=
  (mkW (heap w) (dbs w ++ [mkDb k true parent [] []]), length (dbs w)).

(** kdb.h:308-365 [filter_names]: no name for the empty pattern, all names for "*", otherwise the
    names that match; a pattern that matches nothing throws. *)
Inductive selection := Nothing | All | Matching (f : str -> bool).
Definition filter_names (b : db) (sel : selection) : res (list str) :=
  match sel with
  | Nothing => Ok []
  | All => Ok (keys (objs b))
  | Matching f => match List.filter f (keys (objs b)) with [] => Throw | l => Ok l end
  end.

(** kdb.h:436-459 [shallow_copy] and 461-482 [deep_copy]: a missing name makes the copy fail. *)
Definition shallow_copy (w : world) (s t : nat) (names : list str) : world * bool :=
  let '(w1, ok) :=
    fold_left (fun '(w, ok) n =>
      if contains (get_db w t) n then
        match get_obj_ptr (get_db w t) n with
        | Ok p => (upd_db w s (set_objs (put n p)), ok)
        | _ => (w, false)
        end
      else (w, false)) names (w, true) in
  if ok : bool then (w1, true) else (clear w1 s, false).
Definition deep_copy (w : world) (s t : nat) (names : list str) : world * out :=
  match each names (fun w n =>
          if contains (get_db w t) n then copy_obj_from w s t n n else (w, Ret false)) w with
  | (w1, Exc) => (w1, Exc)
  | (w1, Ret _) =>
    if forallb (contains (get_db w t)) names then (w1, Ret true) else (clear w1 s, Ret false)
  end.

(** kdb.h:664-712 [get_subset]; the new database is the last one; it is destroyed when the
    copy fails. *)
Definition get_subset (w : world) (d : nat) (sel : selection) (copy : bool) : world * out :=
  match filter_names (get_db w d) sel with
  | Ok names =>
    match top_of w d with
    | None => (w, Exc)
    | Some t =>
      if copy then
        let '(w1, s) := create w DB_STANDALONE 0 in
        match deep_copy w1 s t names with
        | (w2, Ret true) => (w2, Ret true)
        | (w2, _) => (mkW (heap w2) (dbs w), Exc)
        end
      else
        let '(w1, s) := create w DB_SUBSET t in
        match shallow_copy w1 s t names with
        | (w2, true) => (upd_db w2 t (set_kids (fun l => l ++ [s])), Ret true)
        | (w2, false) => (w, Exc)
        end
    end
  | _ => (w, Exc)
  end.

(** kdb.h:1039-1068 [merge]. *)
Definition merge (w : world) (d e : nat) (overwrite clear_source : bool) : world * out :=
  match objs (get_db w e) with
  | [] => (w, Ret true)
  | _ =>
    match each (keys (objs (get_db w e))) (fun w n =>
            if contains (get_db w e) n then
              if contains (get_db w d) n then
                if overwrite then
                  match remove w d n with
                  | (w1, Exc) => (w1, Exc)
                  | (w1, _) => copy_obj_from w1 d e n n
                  end
                else (w, Ret true)
              else copy_obj_from w d e n n
            else (w, Ret true)) w with
    | (w1, Exc) => (w1, Exc)
    | (w1, _) => (if clear_source then clear w1 e else w1, Ret true)
    end
  end.

(** kdb.h:932-965 [duplicate]. *)
Definition duplicate (w : world) (d e : nat) (old new : str) : world * out :=
  if Nat.eqb d e && str_eqb old new then (w, Ret false)
  else if negb (contains (get_db w e) old) then (w, Ret false)
  else
    let r := if contains (get_db w d) new then remove w d (key_of new) else (w, Ret true) in
    match r with
    | (w1, Exc) => (w1, Exc)
    | (w1, _) =>
      if negb (contains (get_db w1 e) old) then (w1, Ret false)
      else copy_obj_from w1 d e (key_of old) (key_of new)
    end.

(** Releasing the last user handle of a database: a subset stays owned by its parent; otherwise the
    destructor runs [clear] (kdb.h:607-611). *)
Definition drop (w : world) (d : nat) : world :=
  let b := get_db w d in
  if is_subset (kind b) && alive (get_db w (up b)) && existsb (Nat.eqb d) (kids (get_db w (up b))) then w
  else let w1 := clear w d in
       upd_db w1 d (fun b => mkDb (kind b) false (up b) (kids b) (objs b)).

(** The calls of a user program. *)
Inductive op :=
| New
| Set_ (d : nat) (name : str) (v : T)
| SetPtr (d : nat) (name : str) (p : nat)
| Add (d : nat) (name : str) (v : T)
| Update (d : nat) (name : str) (v : T)
| Remove (d : nat) (name : str)
| Rename (d : nat) (old new : str) (overwrite : bool)
| Merge (d e : nat) (overwrite clear_source : bool)
| Duplicate (d e : nat) (old new : str)
| Subset (d : nat) (sel : selection) (copy : bool)
| Clear (d : nat)
| Drop (d : nat)
| Write (p : nat) (v : T).   (* assignment through a pointer obtained from get_obj_ptr *)

(** Calls on a database that does not exist (any more) are not calls of a valid program: no effect. *)
Definition live (w : world) (d : nat) : bool := alive (get_db w d).
Definition step (w : world) (o : op) : world * out :=
  match o with
  | New => (fst (create w DB_STANDALONE 0), Ret true)
  | Set_ d n v => if live w d then set w d n v else (w, Exc)
  | SetPtr d n p => if live w d then set_obj_ptr w d n p else (w, Exc)
  | Add d n v => if live w d then add w d n v else (w, Exc)
  | Update d n v => if live w d then update w d n v else (w, Exc)
  | Remove d n => if live w d then remove w d n else (w, Exc)
  | Rename d a b ow => if live w d then rename w d a b ow else (w, Exc)
  | Merge d e ow c => if live w d && live w e then merge w d e ow c else (w, Exc)
  | Duplicate d e a b => if live w d && live w e then duplicate w d e a b else (w, Exc)
  | Subset d s c => if live w d then get_subset w d s c else (w, Exc)
  | Clear d => if live w d then (clear w d, Ret true) else (w, Exc)
  | Drop d => if live w d then (drop w d, Ret true) else (w, Exc)
  | Write p v => (mkW (upd_list p (fun _ => v) (heap w)) (dbs w), Ret true)
  end.
Definition run (ops : list op) (w : world) : world := fold_left (fun w o => fst (step w o)) ops w.
(** At start: no object, no database. *)
Definition empty_world : world := mkW [] [].

(** What a user sees through database [d]: the object found under a name ([get], kdb.h:1182-1192),
    and all names with their objects. *)
Definition get (w : world) (d : nat) (name : str) : res T :=
  match get_obj_ptr (get_db w d) name with
  | Ok p => match nth_error (heap w) p with Some v => Ok v | None => Throw end
  | _ => Throw
  end.
Definition shows (w : world) (d : nat) : list (str * option T) :=
  map (fun '(k, p) => (k, nth_error (heap w) p)) (objs (get_db w d)).
End Kdb.
Arguments world : clear implicits.
Arguments empty_world {T}.
Arguments op : clear implicits.
