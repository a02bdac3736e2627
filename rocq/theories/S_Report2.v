(** Specification: the procedures of reports. *)
From Coq Require Import ZArith Ascii String List Bool.
From Verif Require Import M_Base M_Names M_Lex M_Kdb M_Grep M_Report S_Report.
Import ListNotations.
Open Scope Z_scope.

(** The words of the text of a call: the longest parts without blank, comma, line feed, tabulation. *)
Definition words (t : str) : list str := tokens (fun c => among c [32; 44; 10; 9]) t [].
(** The values of the formal parameters: the last one receives what is left. *)
Definition values (fs actuals : list str) : list str :=
  if Nat.leb (length actuals) (length fs) then actuals
  else let k := (length fs - 1)%nat in firstn k actuals ++ [joined BLANK (skipn k actuals)].
Fixpoint bound (fs vs : list str) (k : str) : option str :=
  match fs, vs with
  | f :: fs', v :: vs' => if str_eqb f k then Some v else bound fs' vs' k
  | _, _ => None
  end.
Definition is_formal (fs : list str) (k : str) : bool := existsb (fun f => str_eqb f k) fs.
Definition copy_of (fs : list str) (k : str) : option str := List.find (fun f => str_eqb (kept_name f) k) fs.

Section Calls.
Context {W : Type}.
Notation conf := (conf W).
Definition with_macros (m : str -> option str) (c : conf) : conf :=
  {| c_macro := m; c_args := c_args c; c_policy := c_policy c; c_show := c_show c;
     c_quotes := c_quotes c; c_out := c_out c; c_world := c_world c |}.
(** What the body of a procedure begins with: the formal parameters at their values (those without
    value are as outside), copies of the macros with the names of the formal parameters, the rest
    as outside. *)
Definition called (fs vs : list str) (c : conf) : conf :=
  with_macros (fun k => match bound fs vs k with
                        | Some v => Some v
                        | None => match copy_of fs k with Some f => c_macro c f | None => c_macro c k end
                        end) c.
(** What a call leaves: the macros with the names of the formal parameters as they were, no copy,
    the rest as the body leaves it. *)
Definition returned (fs : list str) (c c' : conf) : conf :=
  with_macros (fun k => if is_formal fs k then c_macro c k
                        else match copy_of fs k with Some _ => None | None => c_macro c' k end) c'.

(** The procedures: formal parameters and body. *)
Definition procs := str -> option (list str * list stmt).
Context (E : env W).
(** Line [pc] is a call of [name] with the text [v]. *)
Definition calls (prog : list stmt) (pc : nat) (c : conf) (name v : str) : Prop :=
  exists ps, nth_error prog pc = Some (SCall name ps) /\
    forallb (piece_ok (reading_of E c)) (written (SCall name ps)) = true /\
    v = value (reading_of E c) ps /\ printable v = true /\ without [34] v = true.
(** A report or a body runs from line [pc] to its end, with the result [rc].  [act]: the procedures
    whose bodies are being executed; they are not called again. *)
Inductive runs_to (D : procs) (act : list str) (prog : list stmt) : nat -> conf -> Z -> conf -> Prop :=
| to_stop pc c rc c' : step E prog pc c = Stop rc c' -> runs_to D act prog pc c rc c'
| to_move pc c pc1 c1 rc c' :
    moves E prog pc c pc1 c1 -> runs_to D act prog pc1 c1 rc c' -> runs_to D act prog pc c rc c'
| to_call pc c name v fs body rc1 c1 pc2 c2 rc c' :
    calls prog pc c name v -> D name = Some (fs, body) -> ~ In name act -> (fs = [] -> words v = []) ->
    (forall f, In f fs -> no_copy c f) ->
    runs_to D (name :: act) body 0 (called fs (values fs (words v)) c) rc1 c1 ->
    (forall f t, In f fs -> c_macro c1 (f ++ [SHARP] ++ t) = c_macro (called fs (values fs (words v)) c) (f ++ [SHARP] ++ t)) ->
    returns false (S2L "procexec") (shave (name ++ BLANK :: v)) rc1 (S pc) (returned fs c (out NL c1)) = Next pc2 c2 ->
    runs_to D act prog pc2 c2 rc c' -> runs_to D act prog pc c rc c'
| to_call_stop pc c name v fs body rc1 c1 rc c' :
    calls prog pc c name v -> D name = Some (fs, body) -> ~ In name act -> (fs = [] -> words v = []) ->
    (forall f, In f fs -> no_copy c f) ->
    runs_to D (name :: act) body 0 (called fs (values fs (words v)) c) rc1 c1 ->
    (forall f t, In f fs -> c_macro c1 (f ++ [SHARP] ++ t) = c_macro (called fs (values fs (words v)) c) (f ++ [SHARP] ++ t)) ->
    returns false (S2L "procexec") (shave (name ++ BLANK :: v)) rc1 (S pc) (returned fs c (out NL c1)) = Stop rc c' ->
    runs_to D act prog pc c rc c'.
(** What the definitions of procedures look like. *)
Definition good_procs (D : procs) : Prop :=
  forall name fs body, D name = Some (fs, body) ->
    forallb stmt_ok body = true /\ forallb index_ok fs = true /\ NoDup fs.

(** A definition: its lines.  The last line of the body is the first one that reads $procend, the
    blanks left out. *)
Definition definition := (str * list str * list stmt)%type.
Definition def_lines (d : definition) : list stmt :=
  let '(name, fs, body) := d in SProc name fs :: body ++ [SProcEnd].
Definition unblanked (t : str) : str := filter (fun c => negb (code c =? 32)) t.
Definition ends_body (st : stmt) : bool := str_eqb (to_lower (unblanked (line_of st))) (S2L "$procend").
Definition good_def (d : definition) : bool :=
  let '(name, fs, body) := d in
  forallb stmt_ok (def_lines d) && forallb (fun st => negb (ends_body st)) body.
(** What definitions add to the procedures: a later definition of a name replaces the former. *)
Fixpoint defined (D : procs) (ds : list definition) : procs :=
  match ds with
  | [] => D
  | (n, fs, body) :: ds' => defined (fun k => if str_eqb n k then Some (fs, body) else D k) ds'
  end.

(** The procedures that a state holds. *)
Definition holds (D : procs) (s : rep W) : Prop :=
  forall name fs body, D name = Some (fs, body) ->
  exists p fid q, proc_find (r_procs s) name = Some p /\ p_parms p = fs /\ p_file p = Some fid /\
    file_get (r_files s) fid = Some {| rf_lines := map line_of body; rf_pos := q |}.
(** The records of procedures are distinct and numbered below the next number: true of a state
    without procedure, and kept by the reports of the theorem. *)
Definition proper (s : rep W) : Prop :=
  (forall p, In p (r_procs s) -> (p_id p < r_next s)%nat /\ forall f, p_file p = Some f -> (f < r_next s)%nat) /\
  (forall p p', In p (r_procs s) -> In p' (r_procs s) -> p_id p = p_id p' -> p = p') /\
  (forall p p' f, In p (r_procs s) -> In p' (r_procs s) -> p_file p = Some f -> p_file p' = Some f -> p = p').
End Calls.
