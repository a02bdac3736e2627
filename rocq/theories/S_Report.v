(** Vocabulary of the claims on reports: how the lines of a report are written, and what they are
    to do, without any reference to the engine.

    A line is described by its pieces, as in the manual: ordinary characters, doubled special
    characters, references to macros and to the arguments of the report, texts between back quotes,
    formulas between braces.  A report is a list of statements. *)
From Coq Require Import ZArith Ascii String List Bool Lia.
From Verif Require Import M_Base M_Names M_Lex M_Grep M_Report.
Import ListNotations.
Open Scope Z_scope.

(** * Pieces of a line *)

Inductive piece :=
| Lit (c : ascii)                  (* a character *)
| Esc (c : ascii)                  (* a doubled special character *)
| Ref (name : str)                 (* %name% *)
| Mod (m : ascii) (name : str)     (* %!name%, %#name%, %-name% *)
| Num (k : Z)                      (* %1%, %2%... *)
| Count                            (* %0% *)
| All                              (* %*% *)
| Raw (t : str)                    (* `t` *)
| Lec (t : str).                   (* {t} *)

(** How a piece is written. *)
Definition wrap (a b : ascii) (t : str) : str := a :: t ++ [b].
Definition source1 (p : piece) : str :=
  match p with
  | Lit c => [c]
  | Esc c => [c; c]
  | Ref name => wrap PERCENT PERCENT name
  | Mod m name => wrap PERCENT PERCENT (m :: name)
  | Num k => wrap PERCENT PERCENT (to_string k)
  | Count => wrap PERCENT PERCENT [chr 48]
  | All => wrap PERCENT PERCENT [chr 42]
  | Raw t => wrap BACKQ BACKQ t
  | Lec t => wrap LBRACE RBRACE t
  end.
Definition source (ps : list piece) : str := flat_map source1 ps.

(** What a line is read with: the macros, the arguments that are left, the value of formulas, and
    whether back quotes protect a text. *)
Record reading := {
  g_macro : str -> option str;
  g_args : list str;
  g_lec : str -> str;
  g_quotes : bool
}.

(** What a piece stands for. *)
Definition modified (m : ascii) (v : str) : str :=
  if code m =? 33 then to_lower v
  else if code m =? 35 then to_upper v
  else filter (fun c => isalpha c || isdigit c || (code c =? 95)) v.
Fixpoint joined (sep : ascii) (l : list str) : str :=
  match l with
  | [] => []
  | [w] => w
  | w :: l' => w ++ sep :: joined sep l'
  end.
Definition value1 (g : reading) (p : piece) : str :=
  match p with
  | Lit c => [c]
  | Esc c => [c]
  | Ref name => match g_macro g name with Some v => v | None => wrap PERCENT PERCENT name end
  | Mod m name => match g_macro g name with Some v => modified m v | None => [] end
  | Num k => nth (Z.to_nat (k - 1)) (g_args g) (wrap PERCENT PERCENT (to_string k))
  | Count => to_string (Z.of_nat (length (g_args g)))
  | All => joined (chr 59) (g_args g)
  | Raw t => t
  | Lec t => g_lec g t
  end.
Definition value (g : reading) (ps : list piece) : str := flat_map (value1 g) ps.

(** The text of a name or formula has no character with a meaning of its own. *)
Definition among (c : ascii) (l : list Z) : bool := existsb (Z.eqb (code c)) l.
Definition without (l : list Z) (t : str) : bool := forallb (fun c => negb (among c l)) t.
Definition first_not (l : list Z) (t : str) : bool :=
  match t with [] => true | c :: _ => negb (among c l) end.
Definition not_digit (t : str) : bool := match t with [] => true | c :: _ => negb (isdigit c) end.
Definition plain (t : str) : bool := without [37; 123; 64] t.
Definition ascii7 (t : str) : bool := forallb (fun c => code c <? 128) t.
Definition nonempty {A} (l : list A) : bool := match l with [] => false | _ => true end.
Definition piece_ok (g : reading) (p : piece) : bool :=
  match p with
  | Lit c => negb (among c [37; 123; 64]) && negb (g_quotes g && (code c =? 96))
  | Esc c => among c [37; 123; 64] || (g_quotes g && (code c =? 96))
  | Ref name => nonempty name && plain name && not_digit name && first_not [42; 33; 35; 45] name
  | Mod m name => among m [33; 35; 45] && plain name && not_digit name && first_not [42] name &&
                  match g_macro g name with Some v => ascii7 v | None => false end
  | Num k => (1 <=? k) && (k <? 2 ^ 30)
  | Count | All => true
  | Raw t => g_quotes g && nonempty t && without [96] t
  | Lec t => plain t && without [125] t && first_not [35; 36; 61] t
  end.

(** * Statements *)

Inductive policy := Ignore | Return | Abort | Quit.
Inductive stmt :=
| SText (ps : list piece)                              (* a line of text *)
| SComment (ps : list piece)                           (* $ ... *)
| SDefine (name : str) (ps : list piece)               (* $define name ... *)
| SUndef (name : str)                                  (* $undef name *)
| SLabel (l : str)                                     (* $label l *)
| SGoto (l : str) (cond : option (list piece))         (* $goto l [...] *)
| SCmd (ignore : bool) (name : str) (ps : list piece)  (* $name ... or $-name ... *)
| SOnError (p : policy)                                (* $onerror ... *)
| SShift (k : Z)                                       (* $shift k *)
| SReturn                                              (* $return *)
| SAbort                                               (* $abort *)
| SForeach (i : str) (ps : list piece)                 (* $foreach i ... *)
| SNext (i : str)                                      (* $next i *)
| SProc (name : str) (fs : list str)                   (* $procdef name f1 f2 ... *)
| SProcEnd                                             (* $procend *)
| SCall (name : str) (ps : list piece).                (* $procexec name ... *)

Definition lits (t : str) : list piece := map Lit t.
Definition policy_word (p : policy) : str :=
  match p with
  | Ignore => S2L "ignore" | Return => S2L "return" | Abort => S2L "abort" | Quit => S2L "quitode"
  end.
Definition written (st : stmt) : list piece :=
  match st with
  | SText ps => ps
  | SComment ps => lits (S2L "$ ") ++ ps
  | SDefine name ps => lits (S2L "$define " ++ name ++ [BLANK]) ++ ps
  | SUndef name => lits (S2L "$undef " ++ name)
  | SLabel l => lits (S2L "$label " ++ l)
  | SGoto l None => lits (S2L "$goto " ++ l)
  | SGoto l (Some ps) => lits (S2L "$goto " ++ l ++ [BLANK]) ++ ps
  | SCmd ignore name ps => lits ([chr 36] ++ (if ignore then [chr 45] else []) ++ name ++ [BLANK]) ++ ps
  | SOnError p => lits (S2L "$onerror " ++ policy_word p)
  | SShift k => lits (S2L "$shift " ++ to_string k)
  | SReturn => lits (S2L "$return")
  | SAbort => lits (S2L "$abort")
  | SForeach i ps => lits (S2L "$foreach " ++ i ++ [BLANK]) ++ ps
  | SNext i => lits (S2L "$next " ++ i)
  | SProc name fs => lits (S2L "$procdef " ++ name ++ flat_map (cons BLANK) fs)
  | SProcEnd => lits (S2L "$procend")
  | SCall name ps => lits (S2L "$procexec " ++ name ++ [BLANK]) ++ ps
  end.
Definition line_of (st : stmt) : str := source (written st).

(** Blanks around a text. *)
Fixpoint unblank (s : str) : str :=
  match s with
  | c :: s' => if code c =? 32 then unblank s' else s
  | [] => []
  end.
Definition shave (t : str) : str := rev (unblank (rev (unblank t))).
Definition printable (t : str) : bool := forallb (fun c => 32 <=? code c) t.

(** A text that cannot be taken for a command, even when commands may be indented. *)
Fixpoint texty (t : str) : bool :=
  match t with
  | [] => true
  | c :: t' => if isspace c then texty t' else negb (among c [35; 36])
  end.
(** A line that goes on with the next one ends with a blank and a backslash. *)
Definition goes_on (t : str) : bool :=
  match rev t with b :: a :: _ => (code b =? 92) && (code a =? 32) | _ => false end.

(** Names. *)
Definition ident (n : str) : bool :=
  match n with
  | c :: r => (isalpha c || (code c =? 95)) &&
              forallb (fun d => isalpha d || isdigit d || (code d =? 95) || (code d =? 35)) r &&
              Nat.leb (length r) 19
  | [] => false
  end.
Definition word (n : str) : bool := nonempty n && forallb (fun d => isalpha d || isdigit d || (code d =? 95)) n.
(** The index of a loop: a letter or '_', then letters, digits and '_'; not longer than 11. *)
Definition index_ok (i : str) : bool := word i && ident i && Nat.leb (length i) 11.
Definition reserved : list str :=
  map S2L ["label"; "goto"; "abort"; "return"; "onerror"; "shift"; "shift_args"; "define"; "undef";
           "undefine"; "indent"; "multiline"; "noparsing"; "repeat"; "repeatstring"; "vseps";
           "foreach"; "next"; "procdef"; "procexec"; "reportexec"; "quit"; "quitode"; "ask"]%string.
Definition stmt_ok (st : stmt) : bool :=
  negb (goes_on (line_of st)) &&
  match st with
  | SText ps => texty (source ps)
  | SDefine name _ | SUndef name => ident name
  | SLabel l | SGoto l _ => word l
  | SCmd _ name _ => word name && Nat.leb (length name) 30 &&
                     negb (existsb (str_eqb (to_lower name)) reserved)
  | SShift k => (0 <=? k) && (k <? 2 ^ 30)
  | SForeach i ps => index_ok i && printable (source ps)
  | SNext i => index_ok i
  | SProc name fs => word name && Nat.leb (length name) 30 && forallb index_ok fs
  | SCall name _ => word name && Nat.leb (length name) 30
  | _ => true
  end.

(** * What a report does *)

Record conf (W : Type) := {
  c_macro : str -> option str;   (* macros *)
  c_args : list str;             (* arguments that are left *)
  c_policy : policy;             (* on an error *)
  c_show : bool;                 (* errors are shown *)
  c_quotes : bool;               (* back quotes protect *)
  c_out : list event;            (* what has been printed, run and reported *)
  c_world : W                    (* the workspaces *)
}.
Arguments c_macro {W}. Arguments c_args {W}. Arguments c_policy {W}. Arguments c_show {W}.
Arguments c_quotes {W}. Arguments c_out {W}. Arguments c_world {W}.

Section Step.
Context {W : Type} (E : env W).
Notation conf := (conf W).

Definition out (e : event) (c : conf) : conf :=
  {| c_macro := c_macro c; c_args := c_args c; c_policy := c_policy c; c_show := c_show c;
     c_quotes := c_quotes c; c_out := c_out c ++ [e]; c_world := c_world c |}.
Definition with_macro (k : str) (v : option str) (c : conf) : conf :=
  {| c_macro := fun k' => if str_eqb k k' then v else c_macro c k'; c_args := c_args c;
     c_policy := c_policy c; c_show := c_show c; c_quotes := c_quotes c; c_out := c_out c; c_world := c_world c |}.
Definition with_args (a : list str) (c : conf) : conf :=
  {| c_macro := c_macro c; c_args := a; c_policy := c_policy c; c_show := c_show c;
     c_quotes := c_quotes c; c_out := c_out c; c_world := c_world c |}.
Definition with_policy (p : policy) (c : conf) : conf :=
  {| c_macro := c_macro c; c_args := c_args c; c_policy := p; c_show := c_show c;
     c_quotes := c_quotes c; c_out := c_out c; c_world := c_world c |}.
Definition with_world (w : W) (c : conf) : conf :=
  {| c_macro := c_macro c; c_args := c_args c; c_policy := c_policy c; c_show := c_show c;
     c_quotes := c_quotes c; c_out := c_out c; c_world := w |}.

(** Names of macros are looked up without the blanks around them. *)
Definition reading_of (c : conf) : reading :=
  {| g_macro := fun n => c_macro c (trim n); g_args := c_args c;
     g_lec := fun t => e_lec E t (c_world c); g_quotes := c_quotes c |}.

Inductive outcome :=
| Next (pc : nat) (c : conf)      (* goes on at line pc *)
| Stop (rc : Z) (c : conf)        (* the report ends *)
| Stuck.                          (* not covered by this description *)

(** A failing command. *)
Fixpoint no_lone_percent (t : str) : bool :=
  match t with
  | c :: r => if code c =? 37
              then match r with d :: r' => (code d =? 37) && no_lone_percent r' | [] => false end
              else no_lone_percent r
  | [] => true
  end.
Definition fails (ignore : bool) (name arg : str) (pc : nat) (c : conf) : outcome :=
  if ignore then Next pc c
  else if c_show c && negb (no_lone_percent arg) then Stuck
  else
    let c' := if c_show c then out (Failed name) c else c in
    match c_policy c with
    | Ignore => Next pc c'
    | Return => Stop 0 c'
    | Abort => Stop (-3) c'
    | Quit => Stop (-4) c'
    end.
(** What a command returns. *)
Definition returns (ignore : bool) (name arg : str) (rc : Z) (pc : nat) (c : conf) : outcome :=
  if rc =? -1 then fails ignore name arg pc c
  else if rc =? -2 then Stop 0 c
  else if (rc =? -3) || (rc =? -4) then Stop rc c
  else Next pc c.

(** The line after the first label [l], upper and lower case letters being the same. *)
Fixpoint after_label (l : str) (prog : list stmt) : option nat :=
  match prog with
  | [] => None
  | SLabel l' :: prog' => if str_eqb (to_lower l') (to_lower l) then Some 1%nat
                          else option_map S (after_label l prog')
  | _ :: prog' => option_map S (after_label l prog')
  end.
Definition jump (prog : list stmt) (l : str) (c : conf) : outcome :=
  match after_label l prog with Some i => Next i c | None => Stop (-3) c end.

Definition step (prog : list stmt) (pc : nat) (c : conf) : outcome :=
  match nth_error prog pc with
  | None => Stop 0 c
  | Some st =>
    let g := reading_of c in
    if negb (forallb (piece_ok g) (written st)) then Stuck
    else
      match st with
      | SText ps =>
        let v := value g ps in
        if texty v then Next (S pc) (out (Text (v ++ [chr 10])) c) else Stuck
      | SComment _ | SLabel _ => Next (S pc) c
      | SDefine name ps =>
        let v := value g ps in
        if printable v then Next (S pc) (with_macro name (Some (shave v)) c) else Stuck
      | SUndef name => Next (S pc) (with_macro name None c)
      | SGoto l None => jump prog l c
      | SGoto l (Some ps) =>
        let v := value g ps in
        if nonempty v && without [32; 44; 34] v && printable v then
          match atoi v with
          | None => Stuck
          | Some z =>
            if z =? 0 then Next (S pc) c
            else if z =? -1 then fails false (S2L "goto") (l ++ [BLANK] ++ v) (S pc) c
            else jump prog l c
          end
        else Stuck
      | SCmd ignore name ps =>
        let v := value g ps in
        if printable v then
          match e_cmd E (to_lower name) (chr 36) with
          | None => fails ignore name (shave v) (S pc) c
          | Some f =>
            match f (shave v) (c_world c) with
            | (Some rc, w) =>
              returns ignore name (shave v) rc (S pc)
                (with_world w (out (Ran (to_lower name) (shave v)) c))
            | (None, _) => Stuck
            end
          end
        else Stuck
      | SOnError p => Next (S pc) (with_policy p c)
      | SShift k => if k <=? Z.of_nat (length (c_args c))
                    then Next (S pc) (with_args (skipn (Z.to_nat k) (c_args c)) c) else Stuck
      | SReturn => Stop 0 c
      | SAbort => Stop (-3) c
      | SForeach _ _ | SNext _ => Stuck   (* see [moves] below *)
      | SProc _ _ | SProcEnd | SCall _ _ => Stuck   (* see S_Report2 *)
      end
  end.
(** [k] lines from line [pc]. *)
Fixpoint runs (prog : list stmt) (k : nat) (pc : nat) (c : conf) : outcome :=
  match k with
  | O => Next pc c
  | S k' => match step prog pc c with Next pc' c' => runs prog k' pc' c' | o => o end
  end.

(** ** Loops

    A loop keeps the elements that are left in the macro FOREACH__i, separated by semicolons, and
    the value the index had before in the macro i#0; each of the definitions it makes prints a line
    feed. *)
Definition left_name (i : str) : str := S2L "FOREACH__" ++ i.
Definition kept_name (i : str) : str := i ++ S2L "#0".
Definition NL : event := Text [chr 10].
(** The elements of a list: the longest parts without semicolon, comma or blank. *)
Fixpoint tokens (p : ascii -> bool) (s w : str) : list str :=
  match s with
  | [] => if nonempty w then [w] else []
  | c :: s' => if p c then (if nonempty w then w :: tokens p s' [] else tokens p s' [])
               else tokens p s' (w ++ [c])
  end.
Definition elements (t : str) : list str := tokens (fun c => among c [59; 44; 32]) t [].
(** A list without parenthesis nor quote, not too long. *)
Definition list_ok (t : str) : bool := printable t && without [40; 34] t && (Z.of_nat (length t) <? 2 ^ 30).
(** No macro i#... but those that are said. *)
Definition no_copy (c : conf) (i : str) : Prop := forall t, c_macro c (i ++ [SHARP] ++ t) = None.
Definition one_copy (c : conf) (i : str) (o : option str) : Prop :=
  c_macro c (kept_name i) = o /\ forall t, t <> [chr 48] -> c_macro c (i ++ [SHARP] ++ t) = None.

Definition keep (i : str) (c : conf) : conf :=
  match c_macro c i with Some v => with_macro (kept_name i) (Some v) c | None => c end.
Definition give_back (i : str) (o : option str) (c : conf) : conf :=
  with_macro (kept_name i) None (with_macro i o (with_macro (left_name i) None c)).
Definition turn (i e : str) (es : list str) (c : conf) : conf :=
  out NL (out NL (with_macro (left_name i) (Some (joined (chr 59) es)) (with_macro i (Some e) c))).

(** The line after the next [$next i]. *)
Fixpoint after_next (i : str) (prog : list stmt) : option nat :=
  match prog with
  | [] => None
  | SNext j :: prog' => if str_eqb (to_lower j) (to_lower i) then Some 1%nat
                        else option_map S (after_next i prog')
  | _ :: prog' => option_map S (after_next i prog')
  end.
Definition is_foreach (i : str) (st : stmt) : bool :=
  match st with SForeach j _ => str_eqb i j | _ => false end.

(** One line, loops included. *)
Inductive moves (prog : list stmt) : nat -> conf -> nat -> conf -> Prop :=
| moves_step pc c pc' c' : step prog pc c = Next pc' c' -> moves prog pc c pc' c'
| moves_enter pc c i ps e es :
    nth_error prog pc = Some (SForeach i ps) ->
    forallb (piece_ok (reading_of c)) (written (SForeach i ps)) = true ->
    list_ok (value (reading_of c) ps) = true ->
    no_copy c i -> no_copy c (left_name i) -> c_macro c (left_name i) = None ->
    elements (value (reading_of c) ps) = e :: es ->
    moves prog pc c (S pc) (turn i e es (out NL (keep i c)))
| moves_skip pc c i ps :
    nth_error prog pc = Some (SForeach i ps) ->
    forallb (piece_ok (reading_of c)) (written (SForeach i ps)) = true ->
    list_ok (value (reading_of c) ps) = true ->
    no_copy c i -> no_copy c (left_name i) -> c_macro c (left_name i) = None ->
    elements (value (reading_of c) ps) = [] ->
    moves prog pc c
      (match after_next i (skipn (S pc) prog) with Some k => S pc + k | None => Nat.max (S pc) (length prog) end)%nat
      (out NL c)
| moves_again pc c i pf ps t e es :
    nth_error prog pc = Some (SNext i) ->
    nth_error prog pf = Some (SForeach i ps) -> (pf < pc)%nat ->
    (forall k st, (pf < k < pc)%nat -> nth_error prog k = Some st -> is_foreach i st = false) ->
    forallb (piece_ok (reading_of c)) (written (SNext i)) = true ->
    c_macro c (left_name i) = Some t -> list_ok t = true ->
    elements t = e :: es ->
    moves prog pc c (S pf) (turn i e es c)
| moves_leave pc c i pf ps t o :
    nth_error prog pc = Some (SNext i) ->
    nth_error prog pf = Some (SForeach i ps) -> (pf < pc)%nat ->
    (forall k st, (pf < k < pc)%nat -> nth_error prog k = Some st -> is_foreach i st = false) ->
    forallb (piece_ok (reading_of c)) (written (SNext i)) = true ->
    c_macro c (left_name i) = Some t -> list_ok t = true ->
    elements t = [] ->
    one_copy c i o -> no_copy c (left_name i) ->
    moves prog pc c (S pc) (give_back i o c).
(** Some lines. *)
Inductive goes (prog : list stmt) : nat -> conf -> nat -> conf -> Prop :=
| goes_nil pc c : goes prog pc c pc c
| goes_cons pc c pc1 c1 pc2 c2 : moves prog pc c pc1 c1 -> goes prog pc1 c1 pc2 c2 -> goes prog pc c pc2 c2.
(** A loop: the body once per element, each time with the index at the element. *)
Fixpoint each (i : str) (body : conf -> conf) (es : list str) (c : conf) : conf :=
  match es with
  | [] => c
  | e :: es' => each i body es' (body (turn i e es' c))
  end.
(** The macros of a loop, that its body leaves alone. *)
Definition own (i k : str) : Prop :=
  k = left_name i \/ (exists t, k = i ++ [SHARP] ++ t) \/ (exists t, k = left_name i ++ [SHARP] ++ t).
End Step.

(** A run ends with [r]: every large enough bound on the steps gives [r]. *)
Definition ends {W A} (m : nat -> rep W -> run (rep W) A) (s : rep W) (r : run (rep W) A) : Prop :=
  exists n0, forall n, (n0 <= n)%nat -> m n s = r.
(** A run never ends. *)
Definition never_ends {W A} (m : nat -> rep W -> run (rep W) A) (s : rep W) : Prop := forall n, m n s = Late.

(** The description of a report that begins in state [s] with the arguments [args]: a first report
    resets the period of the calculations. *)
Definition start {W} (E : env W) (s : rep W) (p : policy) (args : list str) : conf W :=
  {| c_macro := lookup (r_macros s); c_args := args; c_policy := p; c_show := negb (r_print s =? 0);
     c_quotes := r_nopar s; c_out := r_trace s;
     c_world := if r_depth s =? 0 then e_top E (r_world s) else r_world s |}.
Definition policy_code (p : policy) : Z :=
  match p with Ignore => 0 | Return => -2 | Abort => -3 | Quit => -4 end.
(** What a report begun in [s] and ended as [c] leaves: its output and a line feed, its effects on
    the workspaces, its error policy; its macros if it is called by another report, none otherwise;
    everything else as it was. *)
Record leaves {W} (s : rep W) (c : conf W) (s' : rep W) : Prop := {
  lv_out : r_trace s' = c_out c ++ [Text [chr 10]];
  lv_world : r_world s' = c_world c;
  lv_policy : r_rt s' = policy_code (c_policy c);
  lv_macros : if r_depth s =? 0 then r_macros s' = [] else forall k, lookup (r_macros s') k = c_macro c k;
  lv_args : r_argv s' = r_argv s /\ r_arg0 s' = r_arg0 s;
  lv_depth : r_depth s' = r_depth s;
  lv_print : r_print s' = r_print s;
  lv_switches : r_indent s' = r_indent s /\ r_multi s' = r_multi s /\ r_nopar s' = r_nopar s;
  lv_vseps : r_vseps s' = r_vseps s;
  lv_rptstr : r_rptstr s' = r_rptstr s;
  lv_procs : r_procs s' = r_procs s
}.
(** The files that are open have numbers below the next one: true of a state without open file, and
    kept by every run. *)
Definition numbered {W} (s : rep W) : Prop := Forall (fun e => (fst e < r_next s)%nat) (r_files s).
(** A word of an argument list. *)
Definition simple_word (w : str) : bool :=
  nonempty w && forallb (fun c => negb (among c [32; 44; 59; 10; 9; 13; 34])) w &&
  Nat.leb (length w) 128 && first_not [64; 36] w.

(** The reading of a line inside a report: the macros, the arguments after the shifts. *)
Definition reading_in {W} (E : env W) (s : rep W) : reading :=
  {| g_macro := macro s; g_args := skipn (Z.to_nat (r_arg0 s)) (tl (r_argv s));
     g_lec := fun t => e_lec E t (r_world s); g_quotes := r_nopar s |}.
Definition in_report {W} (s : rep W) : Prop :=
  0 <= r_arg0 s <= Z.of_nat (length (tl (r_argv s))) /\ r_argv s <> [] /\ Z.of_nat (length (r_argv s)) < 2 ^ 30.
