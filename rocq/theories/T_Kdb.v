(** Properties C11 to C18: databases of objects, their subsets and copies. *)
From Coq Require Import ZArith Ascii String List Bool Sorted.
From Verif Require Import M_Base M_Names M_Lex S_Names M_Kdb S_Kdb L_Kdb9 L_Kdb7 L_Kdb5.
Import ListNotations.
Open Scope Z_scope.

(** C11: after any history of calls on workspaces without subset, a lookup gives what the finite map
    of the history holds.  Letter case of comments is steady (see C17 for the rest). *)
Theorem C11_workspaces_are_maps_partial : forall (T : Type) ty (ops : list (op T)) d name,
  Forall (plain ty) ops -> steady_case ty (name :: mentions ops) ->
  get ty (run ty ops empty_world) d name =
  match held (spec_run ty ops) d (key_of ty name) with Some v => Ok v | None => Throw end.
Proof. exact (@maps_refine). Qed.
Print Assumptions C11_workspaces_are_maps_partial.
(** A call that stores, changes, deletes or selects and reports an error changes nothing, subsets or not. *)
Theorem C11_errors_change_nothing : forall (T : Type) ty (ops : list (op T)) o e,
  let w := run ty ops empty_world in
  single o -> snd (step ty w o) <> Ret true -> (e < length (dbs w))%nat ->
  shows (fst (step ty w o)) e = shows w e.
Proof. intros T ty ops o e w S F He. exact (single_fails ty w o (reach_any ty ops) S F e He). Qed.
Print Assumptions C11_errors_change_nothing.
Definition h11 : list (op Z) :=
  [New; New; Set_ 0 (S2L "a") 1; Add 0 (S2L "B") 2; Add 0 (S2L "A") 3; Rename 0 (S2L "b") (S2L "c") false;
   Set_ 1 (S2L "d") 7; Merge 0 1 true true; Duplicate 1 0 (S2L "a") (S2L "z"); Remove 0 (S2L "a"); Update 0 (S2L "d") 8].
Example C11_ex : Forall (plain VARIABLES) h11 /\ steady_case VARIABLES (S2L "D" :: mentions h11) /\
  get VARIABLES (run VARIABLES h11 empty_world) 0 (S2L "D") = Ok 8 /\
  get VARIABLES (run VARIABLES h11 empty_world) 0 (S2L "C") = Ok 2 /\
  get VARIABLES (run VARIABLES h11 empty_world) 0 (S2L "a") = Throw /\
  get VARIABLES (run VARIABLES h11 empty_world) 1 (S2L "Z") = Ok 1 /\
  snd (step VARIABLES (run VARIABLES h11 empty_world) (Add 0 (S2L "C") 5)) = Exc.
Proof.
  split. { repeat constructor; try exact I; try discriminate. }
  split; [intros X; discriminate X|]. repeat split; reflexivity.
Qed.
(** Not true in general: with comments, storing under another letter case is not read back, and
    duplicating a name onto itself in another letter case deletes the object. *)
Theorem C11_refuted :
  (let w := run COMMENTS [New; Set_ 0 (S2L "a") 1; Set_ 0 (S2L "A") 2] empty_world in
   get COMMENTS w 0 (S2L "A") = Ok 1) /\
  (let w := run VARIABLES [New; Set_ 0 (S2L "X") 1] empty_world in
   snd (step VARIABLES w (Duplicate 0 0 (S2L "X") (S2L "x"))) = Ret false /\
   shows w 0 = [(S2L "X", Some 1)] /\
   shows (fst (step VARIABLES w (Duplicate 0 0 (S2L "X") (S2L "x")))) 0 = []).
Proof. vm_compute. repeat split. Qed.
Print Assumptions C11_refuted.

(** C12: in every reachable database names are strictly increasing, positions and names correspond. *)
Theorem C12_positions : forall (T : Type) ty (ops : list (op T)) d,
  let b := get_db (run ty ops empty_world) d in
  StronglySorted (fun a b => str_ltb a b = true) (keys (objs b)) /\
  size b = Z.of_nat (length (keys (objs b))) /\
  (forall i, 0 <= i < size b -> exists n, get_name b i = Ok n /\ index_of ty b n = i) /\
  (forall i, ~ 0 <= i < size b -> get_name b i = Throw) /\
  (forall name, In (key_of ty name) (keys (objs b)) ->
     0 <= index_of ty b name < size b /\ get_name b (index_of ty b name) = Ok (key_of ty name)) /\
  (forall name, ~ In (key_of ty name) (keys (objs b)) -> index_of ty b name = -1).
Proof. intros T ty ops d. exact (positions ty anything _ d (reach_any ty ops)). Qed.
Print Assumptions C12_positions.
Example C12_ex : let b := get_db (run VARIABLES h11 empty_world) 0 in
  keys (objs b) = [S2L "C"; S2L "D"] /\ get_name b 1 = Ok (S2L "D") /\ index_of VARIABLES b (S2L " d") = 1.
Proof. vm_compute. repeat split. Qed.

(** C13: a subset that its parent knows gives access to the same object (same address) as the parent,
    after any history in which no rename overwrites.  Missing: renames with overwrite, subsets
    cleared and used again, other letter cases of comments; all three are refuted below. *)
Theorem C13_subset_agrees_partial : forall (T : Type) ty (ops : list (op T)) c t name p,
  Forall gentle ops -> steady_case ty (name :: mentions ops) ->
  let w := run ty ops empty_world in
  subset_of w c t -> get_obj_ptr ty (get_db w c) name = Ok p -> get_obj_ptr ty (get_db w t) name = Ok p.
Proof. exact (@subset_agrees). Qed.
Print Assumptions C13_subset_agrees_partial.
(** What [get_subset] without copy makes: a subset known by the parent with the selected names. *)
Theorem C13_subset_made : forall (T : Type) ty (ops : list (op T)) d sel w',
  steady_case ty (mentions ops) ->
  let w := run ty ops empty_world in
  step ty w (Subset d sel false) = (w', Ret true) ->
  subset_of w' (length (dbs w)) (family w d) /\
  forall k, lookup w' (length (dbs w)) k = if selected sel k && is_some (lookup w d k) then lookup w (family w d) k else None.
Proof. exact (@subset_made). Qed.
Print Assumptions C13_subset_made.
Definition begins_with (c : ascii) (k : str) : bool := match k with x :: _ => Ascii.eqb x c | [] => false end.
Definition h13 : list (op Z) :=
  [New; Set_ 0 (S2L "A1") 1; Set_ 0 (S2L "A2") 2; Set_ 0 (S2L "B") 3; Subset 0 (Matching (begins_with "A"%char)) false;
   Set_ 0 (S2L "A1") 10; Set_ 1 (S2L "A2") 20; Add 1 (S2L "C") 4; Rename 0 (S2L "A1") (S2L "D") false].
Example C13_ex : let w := run VARIABLES h13 empty_world in
  Forall gentle h13 /\ steady_case VARIABLES (S2L "D" :: mentions h13) /\ subset_of w 1 0 /\
  get_obj_ptr VARIABLES (get_db w 1) (S2L "D") = get_obj_ptr VARIABLES (get_db w 0) (S2L "D") /\
  shows w 1 = [(S2L "A2", Some 20); (S2L "C", Some 4); (S2L "D", Some 10)] /\
  shows w 0 = [(S2L "A2", Some 20); (S2L "B", Some 3); (S2L "C", Some 4); (S2L "D", Some 10)].
Proof.
  split; [repeat constructor|]. split; [intros X; discriminate X|]. split; [vm_compute; left; reflexivity|].
  split; [vm_compute; reflexivity|]. split; vm_compute; reflexivity.
Qed.
Theorem C13_refuted :
  (let w := run VARIABLES [New; Set_ 0 (S2L "A") 1; Set_ 0 (S2L "B") 2; Subset 0 (Matching (begins_with "B"%char)) false;
                           Rename 0 (S2L "A") (S2L "B") true] empty_world in
   subset_of w 1 0 /\ get VARIABLES w 1 (S2L "B") = Ok 2 /\ get VARIABLES w 0 (S2L "B") = Ok 1) /\
  (let w := run VARIABLES [New; Set_ 0 (S2L "A") 1; Subset 0 All false; Clear 1; Add 1 (S2L "N") 5; Set_ 0 (S2L "N") 6] empty_world in
   kind (get_db w 1) = DB_SUBSET /\ up (get_db w 1) = 0%nat /\
   get VARIABLES w 1 (S2L "N") = Ok 5 /\ get VARIABLES w 0 (S2L "N") = Ok 6) /\
  (let w := run COMMENTS [New; Set_ 0 (S2L "a") 1; Set_ 0 (S2L "A") 2; Subset 0 All false] empty_world in
   subset_of w 1 0 /\ shows w 1 = [(S2L "A", Some 1); (S2L "a", Some 1)] /\ shows w 0 = [(S2L "A", Some 2); (S2L "a", Some 1)]).
Proof. vm_compute. intuition. Qed.
Print Assumptions C13_refuted.

(** C14: a deep copy shows the selected objects, ... *)
Theorem C14_copy_shows_selection : forall (T : Type) ty (ops : list (op T)) d sel w',
  Forall gentle ops -> steady_case ty (mentions ops) ->
  let w := run ty ops empty_world in
  (kind (get_db w d) = DB_SUBSET -> subset_of w d (up (get_db w d))) ->
  step ty w (Subset d sel true) = (w', Ret true) ->
  shows w' (length (dbs w)) = filter (fun kv => selected sel (fst kv)) (shows w d).
Proof. exact (@deep_copy_shows). Qed.
Print Assumptions C14_copy_shows_selection.
(** ... making it changes nothing, and afterwards calls on other databases do not change it, nor
    calls on it the other databases (all histories, overwriting renames and any letter case included). *)
Theorem C14_copy_isolated : forall (T : Type) ty (ops ops2 : list (op T)) d sel w',
  let w := run ty ops empty_world in
  step ty w (Subset d sel true) = (w', Ret true) ->
  let s := length (dbs w) in
  (forall e, (e < s)%nat -> shows w' e = shows w e /\ family w' e = family w e) /\
  (forall e, (e < s)%nat -> family w' e <> family w' s) /\
  (forall e, (e <= s)%nat -> avoids ty e w' ops2 -> shows (run ty ops2 w') e = shows w' e).
Proof. exact (@deep_copy_isolated). Qed.
Print Assumptions C14_copy_isolated.
Example C14_ex : 
  let w := run VARIABLES h13 empty_world in
  let (w', r) := step VARIABLES w (Subset 1 (Matching (begins_with "A"%char)) true) in
  let ops2 := [Set_ 2 (S2L "A2") 99; Remove 2 (S2L "A2"); Add 2 (S2L "B") 98; Clear 2] in
  r = Ret true /\ length (dbs w) = 2%nat /\ shows w' 2 = [(S2L "A2", Some 20)] /\
  avoids VARIABLES 0 w' ops2 /\ shows (run VARIABLES ops2 w') 0 = shows w 0 /\ shows (run VARIABLES ops2 w') 2 = [].
Proof.
  cbv zeta. destruct (step VARIABLES (run VARIABLES h13 empty_world) (Subset 1 (Matching (begins_with "A"%char)) true)) as [w' r] eqn:E.
  vm_compute in E. injection E as <- <-. repeat split; try (vm_compute; reflexivity);
    intros d H; vm_compute in H; subst d; vm_compute; discriminate.
Qed.

(** C15: in the workspace and in each subset that held [old], a rename moves the parent's object to
    [new]; nothing else changes. *)
Theorem C15_rename_moves : forall (T : Type) ty (ops : list (op T)) d old new ow w' other,
  let w := run ty ops empty_world in
  steady_case ty (old :: new :: other :: mentions ops) ->
  step ty w (Rename d old new ow) = (w', Ret true) ->
  let t := family w d in
  (forall e, view w t e -> get ty w e old <> Throw ->
     get ty w' e new = get ty w t old /\ get ty w t old <> Throw /\
     (key_of ty old <> key_of ty new -> get ty w' e old = Throw)) /\
  (forall e, view w t e -> key_of ty other <> key_of ty old -> key_of ty other <> key_of ty new ->
     get ty w' e other = get ty w e other) /\
  (forall e, ~ view w t e \/ (e <> t /\ get ty w e old = Throw) -> get ty w' e other = get ty w e other) /\
  get ty w d old <> Throw /\ (ow = true \/ get ty w t new = Throw).
Proof. exact (@rename_moves). Qed.
Print Assumptions C15_rename_moves.
Example C15_ex : let w := run VARIABLES h13 empty_world in
  exists w', step VARIABLES w (Rename 1 (S2L "D") (S2L "b") true) = (w', Ret true) /\ view w (family w 1) 1 /\
  shows w' 1 = [(S2L "A2", Some 20); (S2L "B", Some 10); (S2L "C", Some 4)] /\
  shows w' 0 = [(S2L "A2", Some 20); (S2L "B", Some 10); (S2L "C", Some 4)].
Proof. eexists. split; [vm_compute; reflexivity|]. split; [right; vm_compute; left; reflexivity|]. vm_compute. repeat split. Qed.
(** Not for comments in another letter case, nor through a subset that was cleared: success is reported
    and the old name still gives the object. *)
Theorem C15_refuted :
  (let w := run COMMENTS [New; Set_ 0 (S2L "a") 1; Rename 0 (S2L "A") (S2L "b") false] empty_world in
   shows w 0 = [(S2L "a", Some 1); (S2L "b", Some 1)] /\
   snd (step COMMENTS (run COMMENTS [New; Set_ 0 (S2L "a") 1] empty_world) (Rename 0 (S2L "A") (S2L "b") false)) = Ret true) /\
  (let w := run VARIABLES [New; Set_ 0 (S2L "A") 1; Subset 0 All false; Clear 1; Add 1 (S2L "N") 5] empty_world in
   snd (step VARIABLES w (Rename 1 (S2L "N") (S2L "M") false)) = Ret true /\
   shows (fst (step VARIABLES w (Rename 1 (S2L "N") (S2L "M") false))) 1 = [(S2L "N", Some 5)]).
Proof. vm_compute. repeat split. Qed.
Print Assumptions C15_refuted.

(** C16: remove deletes the name in the workspace, its parent and all subsets of the parent, and
    nothing else; it reports whether it did. *)
Theorem C16_remove_deletes : forall (T : Type) ty (ops : list (op T)) d name other w' b,
  let w := run ty ops empty_world in
  steady_case ty (name :: other :: mentions ops) ->
  step ty w (Remove d name) = (w', Ret b) ->
  let t := family w d in
  (b = true <-> get ty w d name <> Throw /\ get ty w t name <> Throw) /\
  (forall e, view w t e -> b = true -> get ty w' e name = Throw) /\
  (forall e, view w t e -> key_of ty other <> key_of ty name -> get ty w' e other = get ty w e other) /\
  (forall e, ~ view w t e \/ b = false -> get ty w' e other = get ty w e other).
Proof. exact (@remove_deletes). Qed.
Print Assumptions C16_remove_deletes.
Example C16_ex : let w := run VARIABLES h13 empty_world in
  exists w', step VARIABLES w (Remove 1 (S2L "d")) = (w', Ret true) /\
  shows w' 1 = [(S2L "A2", Some 20); (S2L "C", Some 4)] /\
  shows w' 0 = [(S2L "A2", Some 20); (S2L "B", Some 3); (S2L "C", Some 4)] /\
  step VARIABLES w (Remove 1 (S2L "B")) = (w, Ret false).
Proof. eexists. split; [vm_compute; reflexivity|]. vm_compute. repeat split. Qed.
Theorem C16_refuted :
  (let w := run COMMENTS [New; Set_ 0 (S2L "a") 1] empty_world in
   snd (step COMMENTS w (Remove 0 (S2L "A"))) = Ret true /\
   get COMMENTS (fst (step COMMENTS w (Remove 0 (S2L "A")))) 0 (S2L "A") = Ok 1) /\
  (let w := run VARIABLES [New; Set_ 0 (S2L "A") 1; Subset 0 All false; Clear 1; Add 1 (S2L "N") 5] empty_world in
   snd (step VARIABLES w (Remove 1 (S2L "N"))) = Ret true /\
   get VARIABLES (fst (step VARIABLES w (Remove 1 (S2L "N")))) 1 (S2L "N") = Ok 5).
Proof. vm_compute. repeat split. Qed.
Print Assumptions C16_refuted.

(** C17: comments are found in any letter case, in every reachable database.  Missing: acting on them
    in another letter case, refuted below and in C11, C15, C16. *)
Theorem C17_comment_lookup_partial : forall (T : Type) ty (ops : list (op T)) d name, ty = COMMENTS ->
  let w := run ty ops empty_world in
  (contains ty (get_db w d) name = true <-> exists k, In k (keys (objs (get_db w d))) /\ same_but_case k (trim name)) /\
  (contains ty (get_db w d) name = true ->
     exists k, In k (keys (objs (get_db w d))) /\ same_but_case k (trim name) /\
       exists v, get ty w d name = Ok v /\ lookup w d k = Some v) /\
  (contains ty (get_db w d) name = false -> get ty w d name = Throw).
Proof. exact (@comment_lookup). Qed.
Print Assumptions C17_comment_lookup_partial.
Example C17_ex : let w := run COMMENTS [New; Set_ 0 (S2L "Ab") 1] empty_world in
  contains COMMENTS (get_db w 0) (S2L "aB ") = true /\ get COMMENTS w 0 (S2L "aB ") = Ok 1.
Proof. vm_compute. repeat split. Qed.
Theorem C17_refuted :
  let w := run COMMENTS [New; Set_ 0 (S2L "a") 1; Set_ 0 (S2L "A") 2] empty_world in
  shows w 0 = [(S2L "A", Some 2); (S2L "a", Some 1)] /\ get COMMENTS w 0 (S2L "A") = Ok 1.
Proof. vm_compute. repeat split. Qed.
Print Assumptions C17_refuted.

(** C18: merging a database that is not a relative (parent, subset, itself). *)
Theorem C18_merge_partial : forall (T : Type) ty (ops : list (op T)) d e ow c name,
  let w := run ty ops empty_world in
  steady_case ty (name :: mentions ops) ->
  live w d = true -> live w e = true -> (kind (get_db w d) = DB_SUBSET -> live w (up (get_db w d)) = true) ->
  family w d <> family w e ->
  exists w', step ty w (Merge d e ow c) = (w', Ret true) /\
    get ty w' d name =
      match get ty w e name, get ty w d name with
      | Ok v, Ok v' => Ok (if ow then v else v')
      | Ok v, _ => Ok v
      | _, r => r
      end /\
    (c = false -> get ty w' e name = get ty w e name) /\
    (c = true -> get ty w e name <> Throw -> get ty w' e name = Throw).
Proof. exact (@merge_shows). Qed.
Print Assumptions C18_merge_partial.
Definition h18 : list (op Z) := [New; New; Set_ 0 (S2L "a") 1; Set_ 0 (S2L "b") 2; Set_ 1 (S2L "b") 3; Set_ 1 (S2L "c") 4; Subset 0 All false].
Example C18_ex : let w := run VARIABLES h18 empty_world in
  live w 2 = true /\ live w 1 = true /\ live w (up (get_db w 2)) = true /\ family w 2 <> family w 1 /\
  shows (fst (step VARIABLES w (Merge 2 1 true false))) 2 = [(S2L "A", Some 1); (S2L "B", Some 3); (S2L "C", Some 4)] /\
  shows (fst (step VARIABLES w (Merge 2 1 true false))) 0 = [(S2L "A", Some 1); (S2L "B", Some 3); (S2L "C", Some 4)] /\
  shows (fst (step VARIABLES w (Merge 2 1 false false))) 0 = [(S2L "A", Some 1); (S2L "B", Some 2); (S2L "C", Some 4)].
Proof. vm_compute. repeat split. discriminate. Qed.
(** Merging with overwrite a workspace with its own subset, or with itself, deletes an object and throws. *)
Theorem C18_refuted :
  (let w := run VARIABLES [New; Set_ 0 (S2L "A") 1; Set_ 0 (S2L "B") 2; Subset 0 All false] empty_world in
   snd (step VARIABLES w (Merge 0 1 true false)) = Exc /\
   shows (fst (step VARIABLES w (Merge 0 1 true false))) 0 = [(S2L "B", Some 2)]) /\
  (let w := run VARIABLES [New; Set_ 0 (S2L "A") 1; Set_ 0 (S2L "B") 2] empty_world in
   snd (step VARIABLES w (Merge 0 0 true false)) = Exc /\
   shows (fst (step VARIABLES w (Merge 0 0 true false))) 0 = [(S2L "B", Some 2)]).
Proof. vm_compute. repeat split. Qed.
Print Assumptions C18_refuted.
