(** What a user expects of the execution of identities. *)
From Coq Require Import ZArith Ascii String List Bool.
From Verif Require Import M_Base M_Time M_Names M_Lex M_Compile M_Bytes M_Exec M_Vars M_Ident S_Vars.
Import ListNotations.
Open Scope Z_scope.

(** The names in a formula. *)
Definition used (text : str) : list str :=
  match fst (compile_text text []) with C_ok atoms => names_of atoms | _ => [] end.

(** Two environments that have the same values, over the sample, for some names. *)
Definition same_on {A} (E E' : env A) (names : list str) : Prop :=
  smp E = smp E' /\ forall n, In n names ->
    scalar E n = scalar E' n /\
    match var_at E n, var_at E' n with
    | Some f, Some g => forall i, 0 <= i < s_nb (smp E) -> f i = g i
    | None, None => True
    | _, _ => False
    end.

(** The names of identities are keys of a map, in upper case: different, and none is the name of a coefficient. *)
Definition well_named (all : list (str * str)) : Prop :=
  NoDup (map fst all) /\ forall n text, In (n, text) all -> is_coefficient n = false.
(** The identity [x] uses the identity [y]. *)
Definition depends (x y : str * str) : Prop := In (fst y) (used (snd x)) /\ fst x <> fst y.
(** Some identities cannot be ordered: each of them uses another one. *)
Definition circular (all : list (str * str)) : Prop :=
  exists C : str * str -> Prop, (exists x, C x) /\
    (forall x, C x -> In x all) /\ (forall x, C x -> exists y, C y /\ depends x y).

(** The state in which the identity [n] is calculated at [t], once all is executed: its own values [old] from [t] on, the
    new values [new] before; the other variables as they are at the end. *)
Definition own {A} (E : env A) (n : str) (old new : Z -> F A) (t : Z) : env A := {|
  var_at := fun m => if str_eqb m n then Some (fun i => if i <? t then new i else old i) else var_at E m;
  scalar := scalar E; smp := smp E |}.

(** The value of a variable at a period, from its values by position. *)
Definition at_period {A} (s : option sample) (f : Z -> F A) (q : period) : F A :=
  match s with
  | Some s => match position s q with Ok i => f i | _ => na A end
  | None => na A
  end.
(** The first source, in the order of the list, that has the variable [m]. *)
Definition content {A} (ws : db A) (f : source A) : option (db A) := match f with S_ws => Some ws | S_file d => d end.
Fixpoint first_source {A} (ws : db A) (files : list (source A)) (m : str) : option (option sample * (Z -> F A)) :=
  match files with
  | [] => None
  | f :: l =>
    match content ws f with
    | Some d => match get m (d_vars d) with Some v => Some (d_smp d, v) | None => first_source ws l m end
    | None => first_source ws l m
    end
  end.
(** The variables are read in the workspace when there is no list of files. *)
Definition sources {A} (files : list (source A)) : list (source A) := match files with [] => [S_ws] | _ => files end.
(** The values of [g], over the sample [vs], are those of the source [o] (NA outside the sample of the source; NA
    everywhere without source). *)
Definition read_from {A} (vs : sample) (o : option (option sample * (Z -> F A))) (g : Z -> F A) : Prop :=
  forall q i, position vs q = Ok i -> g i = match o with Some (s, f) => at_period s f q | None => na A end.
(** All samples come from their constructor. *)
Definition real_samples {A} (ws : db A) (files : list (source A)) : Prop :=
  forall f d s, In f (sources files) -> content ws f = Some d -> d_smp d = Some s -> S_Vars.real_sample s.
