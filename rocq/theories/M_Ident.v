(** Execution of identities: api/k_exec.cpp and api/report/commands/b_idt.cpp:93-146 [B_IdtExecuteIdts].

    Simplifications: traces and messages are left out; the compiled form of an identity is the compilation of its
    text; a file is the database that it contains (None: not found); a variable is a function of the position in the
    sample of its database; names of identities and variables are keys (upper case, C09). *)
From Coq Require Import ZArith Ascii String List Bool.
From Verif Require Import M_Base M_Time M_Names M_Lex M_Compile M_Bytes M_Exec M_Vars.
Import ListNotations.
Open Scope Z_scope.

(** The identities: names and formulas, in the order of the names (std::map). *)
Definition idents := list (str * str).
Definition mem (n : str) (l : list str) : bool := existsb (str_eqb n) l.
Fixpoint get {X} (n : str) (l : list (str * X)) : option X :=
  match l with [] => None | (k, x) :: l' => if str_eqb k n then Some x else get n l' end.
(** The names of the compiled formula [clec->objs]. *)
Definition uses (text : str) : list str :=
  match fst (compile_text text []) with C_ok atoms => names_of atoms | _ => [] end.
(** kdb.h:789-798 [index_of]. *)
Fixpoint index_of (n : str) (l : idents) : option nat :=
  match l with [] => None | (k, _) :: l' => if str_eqb k n then Some O else option_map S (index_of n l') end.

(** k_exec.cpp:213-286 [KI_reorder]. [mark]: the identities that are placed. *)
Definition marked (mark : list bool) (i : nat) : bool := nth i mark false.
Fixpoint set_mark (mark : list bool) (i : nat) : list bool :=
  match mark, i with
  | _ :: m, O => true :: m
  | b :: m, S i => b :: set_mark m i
  | [], _ => []
  end.
(** 234-254: a variable of the formula is an identity that is not placed. *)
Definition blocked (all : idents) (mark : list bool) (x : str * str) : bool :=
  existsb (fun n =>
    negb (is_coefficient n) && negb (str_eqb (fst x) n) &&
    match index_of n all with Some pos => negb (marked mark pos) | None => false end) (uses (snd x)).
(** 225-267: one pass. The continue of line 229 does not increment [i]. *)
Fixpoint pass (all l : idents) (i : nat) (mark : list bool) (order : list nat) (success : bool)
  : list bool * list nat * bool :=
  match l with
  | [] => (mark, order, success)
  | x :: l' =>
    if marked mark i then pass all l' i mark order success
    else if blocked all mark x then pass all l' (S i) mark order success
    else pass all l' (S i) (set_mark mark i) (order ++ [i]) true
  end.
(** 223-285: None is the null pointer (circular definitions). Each pass that succeeds places an identity. *)
Fixpoint reorder_loop (fuel : nat) (all : idents) (mark : list bool) (order : list nat) : option (list nat) :=
  if Nat.ltb (length order) (length all) then
    match fuel with
    | O => None
    | S f =>
      let '(m, o, success) := pass all all 0 mark order false in
      if success then reorder_loop f all m o else None
    end
  else Some order.
Definition reorder (all : idents) : option (list nat) :=
  reorder_loop (length all) all (repeat false (length all)) [].

Section Exec.
Context (A : arith) (real_bytes : str -> list Z).
Notation F := (F A). Notation na := (na A).
Record db := mkDb { d_smp : option sample; d_vars : list (str * (Z -> F)) }.
Inductive source := S_ws | S_file (content : option db).

(** k_exec.cpp:112-134 [KI_series_list] and 146-163 [KI_scalar_list]: the names, without duplicates. *)
Fixpoint add_names (l acc : list str) : list str :=
  match l with [] => acc | n :: l' => add_names l' (if mem n acc then acc else acc ++ [n]) end.
Definition series_list (all : idents) : list str :=
  add_names (map fst all ++ filter (fun n => negb (is_coefficient n)) (flat_map (fun x => uses (snd x)) all)) [].
Definition scalar_list (all : idents) : list str :=
  add_names (filter is_coefficient (flat_map (fun x => uses (snd x)) all)) [].

(** The loops over a common sample: the [n] values of [f] from [b] on are copied at [a] over [g]. *)
Definition moved (n a b : Z) (f g : Z -> F) : Z -> F :=
  fun k => if (a <=? k) && (k <? a + n) then f (k - a + b) else g k.

(** k_exec.cpp:300-401 [KI_read_vars_db]: [vs] is the sample of the variables to read, [loaded] those already read.
    None: an error code. *)
Definition read_vars_db (wanted : list str) (vs : sample) (src : db) (loaded : list (str * (Z -> F)))
  : res (option (list (str * (Z -> F)))) :=
  let to_copy := filter (fun n => negb (mem n (map fst loaded)) && mem n (map fst (d_vars src))) wanted in
  match to_copy with
  | [] => Ok (Some loaded)
  | _ =>
    match d_smp src with
    | None => Ok None
    | Some ts =>
      do o <- overlap vs ts;
      let '(n, a, b) := (o : Z * Z * Z) in
      if 0 <? n then
        Ok (Some (loaded ++ flat_map (fun x => match get x (d_vars src) with
                                               | Some f => [(x, moved n a b f (fun _ => na))]
                                               | None => []
                                               end) to_copy))
      else Ok None
    end
  end.
(** 418-461 [KI_read_vars_file]. *)
Definition read_vars_file (wanted : list str) (vs : sample) (file : option db) (loaded : list (str * (Z -> F)))
  : res (option (list (str * (Z -> F)))) :=
  if forallb (fun n => mem n (map fst loaded)) wanted then Ok (Some loaded)
  else
    match file with
    | Some src => match d_vars src with [] => Ok None | _ => read_vars_db wanted vs src loaded end
    | None => Ok None
    end.
(** 478-512: the sources in their order, while variables are missing. *)
Fixpoint read_sources (wanted : list str) (vs : sample) (ws : db) (files : list source) (loaded : list (str * (Z -> F)))
  : res (option (list (str * (Z -> F)))) :=
  match files with
  | [] => Ok (Some loaded)
  | f :: files' =>
    if Nat.ltb (length loaded) (length wanted) then
      do r <- match f with S_ws => read_vars_db wanted vs ws loaded | S_file d => read_vars_file wanted vs d loaded end;
      match r with Some loaded' => read_sources wanted vs ws files' loaded' | None => Ok None end
    else Ok (Some loaded)
  end.
(** 514-562: the identities that are not found are NA; another variable that is not found is an error. *)
Definition read_vars (all : idents) (wanted : list str) (vs : sample) (ws : db) (files : list source)
  : res (option (list (str * (Z -> F)))) :=
  do r <- match files with [] => read_vars_db wanted vs ws [] | _ => read_sources wanted vs ws files [] end;
  match r with
  | None => Ok None
  | Some loaded =>
    let missing := filter (fun n => negb (mem n (map fst loaded))) wanted in
    if forallb (fun n => mem n (map fst all)) missing
    then Ok (Some (loaded ++ map (fun n => (n, fun _ => na)) missing))
    else Ok None
  end.

(** k_exec.cpp:575-604 [KI_read_scls_db]: number of scalars of [wanted] copied. The test of line 584 is on the database
    that already contains every name of [wanted]. *)
Definition read_scls_db (wanted src : list str) : nat :=
  length (filter (fun n => negb (mem n wanted) && mem n src) wanted).
(** 616-645 [KI_read_scls_file]: no scalar of the list has a null pointer, the file is not read. *)
Definition read_scls_file (wanted : list str) : nat := 0%nat.
(** 663-713 [KI_read_scls]: true on success. *)
Definition read_scls (wanted ws : list str) (files : list bool) : bool :=
  let found := match files with
    | [] => read_scls_db wanted ws
    | _ => fold_left (fun n (is_ws : bool) => (n + if is_ws then read_scls_db wanted ws else read_scls_file wanted)%nat) files 0%nat
    end in
  negb (Nat.ltb found (length wanted)).

(** k_exec.cpp:730-765 [KI_execute]: the values are stored as they are computed. *)
Definition store (E : env A) (n : str) (t : Z) (v : F) : env A := {|
  var_at := fun m =>
    if str_eqb m n then option_map (fun vals i => if i =? t then v else vals i) (var_at E m) else var_at E m;
  scalar := scalar E; smp := smp E |}.
Fixpoint execute_periods (text n : str) (ts : list Z) (E : env A) : res (env A) :=
  match ts with
  | [] => Ok E
  | t :: ts' => do v <- evaluate A E real_bytes text t; execute_periods text n ts' (store E n t v)
  end.
Fixpoint execute (all : idents) (order : list nat) (ts : list Z) (E : env A) : res (env A) :=
  match order with
  | [] => Ok E
  | i :: order' =>
    match nth_error all i with
    | Some (n, text) => do E' <- execute_periods text n ts E; execute all order' ts E'
    | None => Throw                                                  (* get_name: out of range *)
    end
  end.

(** k_exec.cpp:784-875 [KI_exec]: [ws] is the workspace of variables, [scls] the names of the scalars. Ok None: an error
    was reported. The result has the variables of the identities only ([KI_quick_extract], 176-192). *)
Definition ki_exec (all : idents) (ws : db) (vfiles : list source) (scls : list str) (sfiles : list bool)
  (in_smpl : option sample) : res (option (sample * (str -> option (Z -> F)))) :=
  match (match in_smpl with Some s => Some s | None => d_smp ws end) with
  | None => Ok None
  | Some xs =>
    do inside <- match d_smp ws with
      | None => Ok true
      | Some vs =>
        do d <- difference (s_end vs) (s_end xs);
        if d <? 0 then Ok false
        else do d <- difference (s_start xs) (s_start vs); Ok (negb (d <? 0))
      end;
    if negb inside then Ok None
    else
      match all, reorder all with
      | [], _ | _, None => Ok None
      | _, Some order =>
        let vs := match d_smp ws with Some vs => vs | None => xs end in
        do r <- read_vars all (series_list all) vs ws vfiles;
        match r with
        | None => Ok None
        | Some vars =>
          if read_scls (scalar_list all) scls sfiles then
            do d <- difference (s_start xs) (s_start vs);
            let start := if d <? 0 then 0 else d in
            do E <- execute all order (seqZ start (Z.to_nat (s_nb xs)))
                      {| var_at := fun n => get n vars; scalar := fun _ => None; smp := vs |};
            Ok (Some (vs, fun n => if mem n (map fst all) then var_at E n else None))
          else Ok None
        end
      end
  end.

(** k_wsvar.cpp:936-1002 [set_sample] on one variable. *)
Definition resample (old new : sample) (f : Z -> F) : res (Z -> F) :=
  if sample_eqb new old then Ok f
  else
    do o <- overlap old new;
    let '(n, a, b) := (o : Z * Z * Z) in
    Ok (moved n b a f (fun _ => na)).
(** b_idt.cpp:93-146 [B_IdtExecuteIdts] with a sample [xs], in a workspace with a sample: the computed variables are
    cut to [xs] (set_sample), then merged in the workspace (k_wsvar.cpp:25-138, [KV_merge_del] with replacement; an empty
    workspace takes the variables with its own sample). Ok None: an error; the workspace is not changed. *)
Definition execute_idents (all : idents) (ws : db) (vfiles : list source) (scls : list str) (sfiles : list bool)
  (xs : sample) : res (option (str -> option (Z -> F))) :=
  do r <- ki_exec all ws vfiles scls sfiles (Some xs);
  match r, d_smp ws with
  | Some (ks, computed), Some vs =>
    if s_nb xs =? 0 then Ok None                                     (* not modelled: a sample has at least one period *)
    else
      do merged <- mapM (fun x : str * str =>
        match computed (fst x) with
        | None => Throw
        | Some f =>
          do f <- resample ks xs f;
          match d_vars ws with
          | [] => do f <- resample xs vs f; Ok (fst x, f)
          | _ =>
            do o <- overlap vs xs;
            let '(n, a, b) := (o : Z * Z * Z) in
            Ok (fst x, moved n a b f (match get (fst x) (d_vars ws) with Some g => g | None => fun _ => na end))
          end
        end) all;
      Ok (Some (fun n => match get n merged with Some f => Some f | None => get n (d_vars ws) end))
  | _, _ => Ok None
  end.
End Exec.
Arguments d_smp {A}. Arguments d_vars {A}. Arguments mkDb {A}. Arguments S_ws {A}. Arguments S_file {A}.
