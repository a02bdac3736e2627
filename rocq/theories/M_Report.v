(** Model of the report engine (api/report/engine): the expansion of a line (macros, braces,
    @functions, back quotes), the commands of the language ($define, $undef, $foreach, $next,
    $procdef, $procexec, $goto, $label, $return, $abort, $onerror, $repeat, $shift, the switches),
    and the execution of the lines of a report file and of its sub-reports.

    What is left to parameters (record [env]): the value of a LEC formula between braces, the
    @functions that read the workspaces or the calendar, the commands that act on the workspaces
    ($WsLoadVar, $DataCalcVar...), and the reading of a report file.  They see and change an
    abstract world [W].

    Simplifications:
    - texts are NUL free byte lists; memory allocation always succeeds;
    - a command receives a copy of its argument: the changes made in place by a command in its
      argument are followed as long as they are visible (B_get_arg0, U_ljust_text, SCR_strip) and
      are lost afterwards (they could only be seen in the error message);
    - the bytes that follow the terminating NUL of an argument are known to be blanks when the
      argument has been stripped (field [room] of [Arg]); reading them otherwise is undefined, also
      where the buffer happens to be longer;
    - the messages shown to the user ($show, warnings, debugging) are not kept;
    - a printed text is kept as it is given to W_printf ("%s" with the line): the skipping of blank
      texts before the first printed one and the limit of 12400 bytes of w_wrt.cpp are not modelled;
    - an Excel reference between braces, @file and $list in an argument list, $quit, $ask, #prompt
      and the interactive variants are [Unmodelled] or left to [e_cmd];
    - a table of procedures keeps the live ones only; identifiers are never used again, which turns
      every use of a freed procedure or file into [Undefined]. *)
From Coq Require Import ZArith Ascii String List Bool Lia.
From Verif Require Import M_Base M_Names M_Lex M_Kdb M_Grep.
Import ListNotations.
Open Scope Z_scope.

(** Outcome of a run: a value and a state, an uncaught C++ exception (and the state it leaves),
    undefined behaviour, a part that is not modelled, or not finished within the given number of
    steps. *)
Inductive run (S A : Type) : Type :=
| Done (a : A) (s : S)
| Thrown (s : S)
| Undefined
| Unmodelled
| Late.
Arguments Done {S A} a s.
Arguments Thrown {S A} s.
Arguments Undefined {S A}.
Arguments Unmodelled {S A}.
Arguments Late {S A}.

Definition ret {S A} (a : A) : S -> run S A := fun s => Done a s.
Definition bind {S A B} (m : S -> run S A) (k : A -> S -> run S B) : S -> run S B := fun s =>
  match m s with
  | Done a s' => k a s'
  | Thrown s' => Thrown s'
  | Undefined => Undefined
  | Unmodelled => Unmodelled
  | Late => Late
  end.
Definition undefined {S A} : S -> run S A := fun _ => Undefined.
Definition unmodelled {S A} : S -> run S A := fun _ => Unmodelled.
Definition throw {S A} : S -> run S A := fun s => Thrown s.
Definition get {S} : S -> run S S := fun s => Done s s.
Definition modify {S} (f : S -> S) : S -> run S unit := fun s => Done tt (f s).
Notation "x <-- m ;; k" := (bind m (fun x => k)) (at level 100, m at level 90, right associativity).
Notation "m ;;; k" := (bind m (fun _ => k)) (at level 100, right associativity).

(** * Texts (scr4) *)

Definition is (z : Z) (c : ascii) : bool := code c =? z.
Definition BLANK : ascii := chr 32.

(** s_stuppr.c:42-95 [SCR_upper_char] on a byte. *)
Definition upper_char (c : ascii) : ascii :=
  let z := code c in
  let among l := existsb (Z.eqb z) l in
  if islower c then chr (z - 32)
  else if among [210; 211; 212; 144; 130; 138; 137; 136] then chr 69
  else if among [160; 133; 131; 181; 183; 182; 142; 132] then chr 65
  else if among [214; 222; 215; 216; 161; 141; 140; 139] then chr 73
  else if among [224; 227; 226; 153; 162; 149; 148; 147] then chr 79
  else if among [233; 235; 234; 154; 163; 150; 151; 129] then chr 85
  else if among [135] then chr 67
  else c.
(** s_stuppr.c:108-118 [SCR_upper]; s_stlow.c [SCR_lower] is [to_lower]. *)
Definition scr_upper (s : str) : str := map upper_char s.

(** s_stsqz.c:47-58 [SCR_sqz]. *)
Definition sqz (s : str) : str := filter (fun c => negb (is 32 c)) s.
(** s_stsqz.c:20-32 [SCR_asqz] with the list "_" (the text is made of unsigned characters). *)
Definition asqz (s : str) : str :=
  filter (fun c => isdigit c || isupper (upper_char c) || is 95 c) s.

(** s_ststrp.c:23-36 [SCR_strip]: the bytes at most ' ' at the end. *)
Fixpoint drop_low (s : str) : str :=
  match s with
  | c :: s' => if code c <=? 32 then drop_low s' else s
  | [] => []
  end.
Definition strip (s : str) : str := rev (drop_low (rev s)).

(** s_stljus.c:18-28 [U_ljust_text], s_stushf.c [U_shift_text]: the text moves to the left and is
    filled with blanks; a blank text stays. *)
Definition ljust (s : str) : str :=
  match drop_blanks s with
  | [] => s
  | r => r ++ repeat BLANK (length s - length r)
  end.

Fixpoint span (p : ascii -> bool) (s : str) : str * str :=
  match s with
  | c :: s' => if p c then let '(a, b) := span p s' in (c :: a, b) else ([], s)
  | [] => ([], [])
  end.

(** s_stupos.c [U_pos], s_stuisn.c [U_is_in]. *)
Definition mem (seps : str) (c : ascii) : bool := existsb (Ascii.eqb c) seps.

(** s_stvtom.c:39-59 [SCR_vtoms]. *)
Fixpoint vtoms_n (n : nat) (seps s : str) : list str :=
  match n with
  | O => []
  | S n' =>
    match snd (span (mem seps) s) with
    | [] => []
    | r => let '(w, r') := span (fun c => negb (mem seps c)) r in
           w :: match r' with [] => [] | _ :: r'' => vtoms_n n' seps r'' end
    end
  end.
Definition vtoms (seps s : str) : list str := vtoms_n (S (length s)) seps s.

(** b_rep_utils.cpp:356-399 [SCR_vtomsq] with the double quote as quote character (the separators never
    contain it). *)
Definition QUOTE : ascii := chr 34.
Fixpoint vtomsq_n (n : nat) (seps s : str) : list str :=
  match n with
  | O => []
  | S n' =>
    match snd (span (mem seps) s) with
    | [] => []
    | c :: r =>
      if Ascii.eqb c QUOTE then
        match r with
        | [] => []
        | _ => let '(w, r') := span (fun c => negb (Ascii.eqb c QUOTE)) r in
               w :: match r' with [] => [] | _ :: r'' => vtomsq_n n' seps r'' end
        end
      else
        let '(w, r') := span (fun c => negb (mem seps c)) (c :: r) in
        w :: match r' with [] => [] | _ :: r'' => vtomsq_n n' seps r'' end
    end
  end.
Definition vtomsq (seps s : str) : list str := vtomsq_n (S (length s)) seps s.

(** s_stmtov.c:68-100 [SCR_mtov]. *)
Fixpoint mtov (l : list str) (sep : str) : str :=
  match l with
  | [] => []
  | [w] => w
  | w :: l' => w ++ sep ++ mtov l' sep
  end.

(** api/constants.h:220 [B_SEPS]. *)
Definition B_SEPS : str := [BLANK; chr 44; chr 10; chr 9].
(** [A_SEPS] as set at the start of a session (b_api.cpp:62), s_ainit.c:5 [A_MAX_ARG]. *)
Definition A_SEPS : str := [BLANK; chr 44; chr 59; chr 10; chr 9; chr 13].
Definition A_MAX_ARG : nat := 128.

(** s_ainit.c:250-283 [A_read] on a text, called until the end (s_ainit.c:216-221): [w] is the
    word read so far, [q] the flag of a quoted word. *)
Fixpoint aread (s w : str) (q : bool) : list str :=
  match s with
  | [] => match w with [] => [] | _ => [w] end
  | c :: s' =>
    if negb q && mem A_SEPS c then
      match w with [] => aread s' [] q | _ => w :: aread s' [] false end
    else if Nat.ltb (length w) A_MAX_ARG then
      if Ascii.eqb c QUOTE then
        match w with
        | [] => aread s' [] true
        | _ => if q then w :: aread s' [] false else aread s' w q
        end
      else aread s' (w ++ [c]) q
    else aread s' w q
  end.
(** s_ainit.c:62-112 [A_init] through api/b_args.cpp:58-74 [B_ainit_chk]: [None] when a word begins
    with '@' or '$' (file or list to expand), which is not modelled. *)
Definition expands (w : str) : bool :=
  match w with c :: _ => is 64 c || is 36 c | [] => false end.
Definition ainit (s : str) : option (list str) :=
  let l := aread s [] false in
  if expands s || existsb expands l then None else Some l.

(** C [atoi]: blanks, an optional sign, digits; 0 without digits; [None] beyond 32 bits. *)
Definition atoi (s : str) : option Z :=
  let s1 := skip_spaces s in
  let '(neg, s2) :=
    match s1 with
    | c :: s' => if is 45 c then (true, s') else if is 43 c then (false, s') else (false, s1)
    | [] => (false, s1)
    end in
  let v := fst (read_digits s2 0 O) in
  let v' := if neg : bool then - v else v in
  if (v' <? - 2 ^ 31) || (2 ^ 31 <=? v') then None else Some v'.

(** s_strepl.c:6-68 [SCR_replace_gnl] without the restriction to words: every occurrence from left
    to right, the text put in is not looked at again. *)
Fixpoint starts (p s : str) : bool :=
  match p, s with
  | [], _ => true
  | c :: p', d :: s' => Ascii.eqb c d && starts p' s'
  | _ :: _, [] => false
  end.
Fixpoint replace_n (n : nat) (s from by_ : str) : str :=
  match n with
  | O => s
  | S n' =>
    match s with
    | [] => []
    | c :: s' => if starts from s then by_ ++ replace_n n' (skipn (length from) s) from by_
                 else c :: replace_n n' s' from by_
    end
  end.
Definition replace (s from by_ : str) : str := replace_n (S (length s)) s from by_.

(** api/b_args.cpp:183-195 [B_get_arg0]: the first word, of at most [lg - 1] characters, and the
    argument as the function leaves it. *)
Definition untab (s : str) : str := map (fun c => if is 9 c then BLANK else c) s.
Definition get_arg0 (t : str) (lg : nat) : str * str :=
  let t' := ljust (untab t) in
  (fst (span (fun c => negb (mem B_SEPS c)) (firstn (lg - 1) t')), t').

(** b_rep_engine.cpp:405-432 [RP_splitline] with [lg = 30]: failure on an empty text, undefined when
    the word is longer than 30 characters (the terminator is written after the array of 31 in
    RP_ReportExec_tbl; the characters after the thirtieth are never written in the other arrays). *)
Inductive split := SplitFail | SplitUndefined | Split (name arg : str) (room : bool).
Definition splitline (t : str) : split :=
  match t with
  | [] => SplitFail
  | c :: _ =>
    if is 10 c then SplitFail
    else
      let '(w, rest) := span word_char t in
      if Nat.ltb 30 (length w) then SplitUndefined
      else let a := strip (ljust rest) in Split w a (Nat.ltb (length a) (length rest))
  end.

(** b_rep_utils.cpp:328-339 [RP_is_cmd], b_rep_engine.cpp:1455-1457. *)
Definition blank4 : str := [BLANK; chr 10; chr 13; chr 9].
Definition is_dollar (c : ascii) : bool := is 35 c || is 36 c.

(** * State *)

(** Argument of a command: a text (with [room] when the byte after the terminator may be read and
    gives blanks up to another terminator), or a pointer after the terminator. *)
Inductive carg := Past | Arg (t : str) (room : bool).

(** REPFILE (lines and current line), REP_PROC (b_rep_proc.cpp:82-88). *)
Record rfile := { rf_lines : list str; rf_pos : nat }.
Record proc := { p_id : nat; p_name : str; p_parms : list str; p_file : option nat }.

(** What an observer of a report sees: texts sent to the printing destination, commands executed
    outside the language, errors reported. *)
Inductive event := Text (s : str) | Ran (name arg : str) | Failed (name : str).

Section Engine.
Context {W : Type}.

Record env := {
  e_lec : str -> W -> str;                                (* RP_evallec and RP_fmt; [] if NA *)
  e_fn : str -> list str -> W -> option str;              (* the other @functions; None if unknown *)
  e_cmd : str -> ascii -> option (str -> W -> option Z * W);  (* the other commands; None if unknown; a code or an exception *)
  e_file : str -> W -> option (list str);                 (* lines of a report file *)
  e_top : W -> W                                          (* reset of RP_T and RP_PER by a first report *)
}.

(** Globals of api/report/reports.h:50-70, RP_MACRO, REP_PROCS, CUR_REPFILE; [r_argv] is the
    argument vector with the name of the report (RP_ARGV - 1). *)
Record rep := {
  r_macros : list (str * str);
  r_argv : list str;
  r_arg0 : Z;
  r_rt : Z;
  r_print : Z;
  r_indent : bool;
  r_multi : bool;
  r_nopar : bool;
  r_vseps : str;
  r_rptstr : str;
  r_procs : list proc;
  r_files : list (nat * rfile);
  r_next : nat;
  r_cur : option nat;
  r_depth : Z;
  r_trace : list event;
  r_world : W
}.

Definition M (A : Type) := rep -> run rep A.

Definition set_macros x (s : rep) : rep :=
  Build_rep x (r_argv s) (r_arg0 s) (r_rt s) (r_print s) (r_indent s) (r_multi s) (r_nopar s) (r_vseps s)
    (r_rptstr s) (r_procs s) (r_files s) (r_next s) (r_cur s) (r_depth s) (r_trace s) (r_world s).
Definition set_args x y (s : rep) : rep :=
  Build_rep (r_macros s) x y (r_rt s) (r_print s) (r_indent s) (r_multi s) (r_nopar s) (r_vseps s)
    (r_rptstr s) (r_procs s) (r_files s) (r_next s) (r_cur s) (r_depth s) (r_trace s) (r_world s).
Definition set_rt x (s : rep) : rep :=
  Build_rep (r_macros s) (r_argv s) (r_arg0 s) x (r_print s) (r_indent s) (r_multi s) (r_nopar s) (r_vseps s)
    (r_rptstr s) (r_procs s) (r_files s) (r_next s) (r_cur s) (r_depth s) (r_trace s) (r_world s).
Definition set_print x (s : rep) : rep :=
  Build_rep (r_macros s) (r_argv s) (r_arg0 s) (r_rt s) x (r_indent s) (r_multi s) (r_nopar s) (r_vseps s)
    (r_rptstr s) (r_procs s) (r_files s) (r_next s) (r_cur s) (r_depth s) (r_trace s) (r_world s).
Definition set_indent x (s : rep) : rep :=
  Build_rep (r_macros s) (r_argv s) (r_arg0 s) (r_rt s) (r_print s) x (r_multi s) (r_nopar s) (r_vseps s)
    (r_rptstr s) (r_procs s) (r_files s) (r_next s) (r_cur s) (r_depth s) (r_trace s) (r_world s).
Definition set_multi x (s : rep) : rep :=
  Build_rep (r_macros s) (r_argv s) (r_arg0 s) (r_rt s) (r_print s) (r_indent s) x (r_nopar s) (r_vseps s)
    (r_rptstr s) (r_procs s) (r_files s) (r_next s) (r_cur s) (r_depth s) (r_trace s) (r_world s).
Definition set_nopar x (s : rep) : rep :=
  Build_rep (r_macros s) (r_argv s) (r_arg0 s) (r_rt s) (r_print s) (r_indent s) (r_multi s) x (r_vseps s)
    (r_rptstr s) (r_procs s) (r_files s) (r_next s) (r_cur s) (r_depth s) (r_trace s) (r_world s).
Definition set_vseps x (s : rep) : rep :=
  Build_rep (r_macros s) (r_argv s) (r_arg0 s) (r_rt s) (r_print s) (r_indent s) (r_multi s) (r_nopar s) x
    (r_rptstr s) (r_procs s) (r_files s) (r_next s) (r_cur s) (r_depth s) (r_trace s) (r_world s).
Definition set_rptstr x (s : rep) : rep :=
  Build_rep (r_macros s) (r_argv s) (r_arg0 s) (r_rt s) (r_print s) (r_indent s) (r_multi s) (r_nopar s) (r_vseps s)
    x (r_procs s) (r_files s) (r_next s) (r_cur s) (r_depth s) (r_trace s) (r_world s).
Definition set_procs x (s : rep) : rep :=
  Build_rep (r_macros s) (r_argv s) (r_arg0 s) (r_rt s) (r_print s) (r_indent s) (r_multi s) (r_nopar s) (r_vseps s)
    (r_rptstr s) x (r_files s) (r_next s) (r_cur s) (r_depth s) (r_trace s) (r_world s).
Definition set_files x y (s : rep) : rep :=
  Build_rep (r_macros s) (r_argv s) (r_arg0 s) (r_rt s) (r_print s) (r_indent s) (r_multi s) (r_nopar s) (r_vseps s)
    (r_rptstr s) (r_procs s) x y (r_cur s) (r_depth s) (r_trace s) (r_world s).
Definition set_cur x (s : rep) : rep :=
  Build_rep (r_macros s) (r_argv s) (r_arg0 s) (r_rt s) (r_print s) (r_indent s) (r_multi s) (r_nopar s) (r_vseps s)
    (r_rptstr s) (r_procs s) (r_files s) (r_next s) x (r_depth s) (r_trace s) (r_world s).
Definition set_depth x (s : rep) : rep :=
  Build_rep (r_macros s) (r_argv s) (r_arg0 s) (r_rt s) (r_print s) (r_indent s) (r_multi s) (r_nopar s) (r_vseps s)
    (r_rptstr s) (r_procs s) (r_files s) (r_next s) (r_cur s) x (r_trace s) (r_world s).
Definition add_event e (s : rep) : rep :=
  Build_rep (r_macros s) (r_argv s) (r_arg0 s) (r_rt s) (r_print s) (r_indent s) (r_multi s) (r_nopar s) (r_vseps s)
    (r_rptstr s) (r_procs s) (r_files s) (r_next s) (r_cur s) (r_depth s) (r_trace s ++ [e]) (r_world s).
Definition set_world x (s : rep) : rep :=
  Build_rep (r_macros s) (r_argv s) (r_arg0 s) (r_rt s) (r_print s) (r_indent s) (r_multi s) (r_nopar s) (r_vseps s)
    (r_rptstr s) (r_procs s) (r_files s) (r_next s) (r_cur s) (r_depth s) (r_trace s) x.

(** State of a fresh program: reports.h:50-70, RP_VSEPS and RP_RPTSTR once given their defaults. *)
Definition fresh (w : W) : rep :=
  Build_rep [] [] 0 0 2 false true true [chr 59; chr 44; BLANK] [chr 95] [] [] O None 0 [] w.

(** ** Files *)
Fixpoint file_get (l : list (nat * rfile)) (id : nat) : option rfile :=
  match l with
  | [] => None
  | (i, f) :: l' => if Nat.eqb i id then Some f else file_get l' id
  end.
Definition file_del (l : list (nat * rfile)) (id : nat) : list (nat * rfile) :=
  filter (fun e => negb (Nat.eqb (fst e) id)) l.
Definition file_set (l : list (nat * rfile)) (id : nat) (f : rfile) : list (nat * rfile) :=
  (id, f) :: file_del l id.

(** b_rep_engine.cpp:191-218 [RP_create_repfile], [RP_free_repfile]. *)
Definition new_file (lines : list str) : M nat := fun s =>
  Done (r_next s) (set_files (file_set (r_files s) (r_next s) {| rf_lines := lines; rf_pos := O |}) (S (r_next s)) s).
Definition free_file (id : nat) : M unit :=
  modify (fun s => set_files (file_del (r_files s) id) (r_next s) s).
Definition file_of (id : nat) : M rfile := fun s =>
  match file_get (r_files s) id with Some f => Done f s | None => Undefined end.
Definition set_pos (id : nat) (p : nat) : M unit :=
  f <-- file_of id ;;
  modify (fun s => set_files (file_set (r_files s) id {| rf_lines := rf_lines f; rf_pos := p |}) (r_next s) s).

(** b_rep_engine.cpp:295-316 [RP_read_multiline]: the text read so far [acc], the lines that
    remain; result: the text and the number of lines taken.  A line is continued when the text so
    far ends with a blank and a backslash, which become a line feed. *)
Definition continued (s : str) : option str :=
  match rev s with
  | b :: a :: r => if is 92 b && is 32 a then Some (rev r ++ [chr 10]) else None
  | _ => None
  end.
Fixpoint multiline (multi : bool) (acc : str) (lines : list str) : str * nat :=
  match lines with
  | [] => (acc, O)
  | l :: lines' =>
    let t := acc ++ l in
    match (if multi then continued t else None) with
    | Some t' => let '(r, n) := multiline multi t' lines' in (r, S n)
    | None => (t, 1%nat)
    end
  end.

(** b_rep_engine.cpp:348-358: indentation of a command, when allowed. *)
Definition unindent (s : str) : str :=
  match drop_blanks s with
  | c :: _ => if is_dollar c then ljust s else s
  | [] => s
  end.

(** b_rep_engine.cpp:331-361 [RP_readline] without the expansion; [None] at the end of the file. *)
Definition read_raw (id : nat) : M (option str) :=
  f <-- file_of id ;;
  s <-- get ;;
  match skipn (rf_pos f) (rf_lines f) with
  | [] => ret None
  | l => let '(t, n) := multiline (r_multi s) [] l in
         set_pos id (rf_pos f + n)%nat ;;; ret (Some t)
  end.
Definition indent (t : str) : M str :=
  s <-- get ;; ret (if r_indent s then unindent t else t).
(** mode 0. *)
Definition read_line (id : nat) : M (option str) :=
  o <-- read_raw id ;;
  match o with
  | None => ret None
  | Some t => t' <-- indent t ;; ret (Some t')
  end.

(** ** Macros (b_rep_defs.cpp), objs/macros.cpp: names are kept as they are, blanks around them are
    dropped (kdb.h:287-299 with ASIS_CASE). *)
Fixpoint lookup (l : list (str * str)) (k : str) : option str :=
  match l with
  | [] => None
  | (k', v) :: l' => if str_eqb k' k then Some v else lookup l' k
  end.
Definition remove_key (l : list (str * str)) (k : str) : list (str * str) :=
  filter (fun e => negb (str_eqb (fst e) k)) l.
Definition put (l : list (str * str)) (k v : str) : list (str * str) := (k, v) :: remove_key l k.
Definition key (name : str) : str := to_key ASIS_CASE name.
Definition macro (s : rep) (name : str) : option str := lookup (r_macros s) (key name).

(** b_rep_defs.cpp:41-57 [RP_define_1] through KDBMacros::set_macro (objs/macros.cpp:17-27) and
    kdb.h set_obj_ptr: an invalid name throws. *)
Definition define_1 (name value : str) : M Z := fun s =>
  match check_name (key name) OBJECTS with
  | Ok _ => Done 0 (set_macros (put (r_macros s) (key name) value) s)
  | _ => Thrown s
  end.

(** b_rep_defs.cpp:67-81 [RP_define]. *)
Definition define (a : carg) : M Z :=
  match a with
  | Past => undefined
  | Arg t room =>
    let '(name, t') := get_arg0 t 21 in
    if Nat.ltb (length name) (length t')
    then define_1 name (strip (ljust (skipn (length name + 1) t')))
    else if room then define_1 name [] else undefined
  end.

(** b_rep_defs.cpp:119-127 [RP_undef_1]: 1 when a macro is removed. *)
Definition undef_1 (name : str) : M Z := fun s =>
  match macro s name with
  | None => Done 0 s
  | Some _ => Done 1 (set_macros (remove_key (r_macros s) (key name)) s)
  end.
(** b_rep_defs.cpp:140-143 [RP_undef], b_args.cpp:125-141 [B_loop]: stops at the first code other
    than 0. *)
Fixpoint undef_loop (l : list str) : M Z :=
  match l with
  | [] => ret 0
  | w :: l' => rc <-- undef_1 w ;; if rc =? 0 then undef_loop l' else ret rc
  end.
Definition with_words (a : carg) (f : list str -> M Z) : M Z :=
  match a with
  | Past => undefined
  | Arg t _ => match ainit t with None => unmodelled | Some l => f l end
  end.

(** b_rep_defs.cpp:155-177 [RP_define_calcdepth]: greatest number after "name#", -1 without one;
    [None] where the buffer of 1024 bytes or an int overflows. *)
Definition SHARP : ascii := chr 35.
Fixpoint depth_in (l : list (str * str)) (p : str) (m : Z) : option Z :=
  match l with
  | [] => Some m
  | (k, _) :: l' =>
    if starts p k then
      match atoi (skipn (length p) k) with
      | None => None
      | Some d => depth_in l' p (Z.max m d)
      end
    else depth_in l' p m
  end.
Definition calcdepth (name : str) : M Z := fun s =>
  if Nat.ltb 1022 (length name) then Undefined
  else match depth_in (r_macros s) (name ++ [SHARP]) (-1) with
       | None => Undefined
       | Some d => Done d s
       end.

(** b_rep_defs.cpp:189-207 [RP_define_save]. *)
Definition saved_name (name : str) (d : Z) : str := name ++ [SHARP] ++ to_string d.
Definition save (name : str) : M Z := fun s =>
  match macro s name with
  | None => Done 0 s
  | Some v => (d <-- calcdepth name ;; define_1 (saved_name name (d + 1)) v) s
  end.

(** b_rep_defs.cpp:220-240 [RP_define_restore]; get_macro throws on an unknown name. *)
Definition restore (name : str) : M Z :=
  undef_1 name ;;;
  d <-- calcdepth name ;;
  if d <? 0 then ret 0
  else
    s <-- get ;;
    match macro s (saved_name name d) with
    | None => throw
    | Some v =>
      rc <-- define_1 name v ;;
      undef_1 (saved_name name d) ;;;
      ret rc
    end.
Fixpoint each (f : str -> M Z) (l : list str) : M Z :=
  match l with
  | [] => ret 0
  | w :: l' => rc <-- f w ;; if rc =? 0 then each f l' else ret rc
  end.
(** b_rep_defs.cpp:249-278 [RP_define_save_list], [RP_define_restore_list]. *)
Definition save_list : list str -> M Z := each save.
Definition restore_list : list str -> M Z := each restore.

(** ** @functions (b_rep_fns.cpp) that only work on texts. *)
Definition spaces (n : Z) : str := repeat BLANK (Z.to_nat n).
(** b_rep_fns.cpp:150-184 [RPF_take]. *)
Definition f_take (args : list str) : option (option str) :=
  match args with
  | [a; t] =>
    match atoi a with
    | None => None
    | Some n =>
      let lg := Z.of_nat (length t) in
      Some (Some (if 0 <? n
        then (if lg <=? n then t ++ spaces (n - lg) else firstn (Z.to_nat n) t)
        else (if lg <=? - n then spaces (- n - lg) ++ t else skipn (Z.to_nat (lg + n)) t)))
    end
  | _ => Some None
  end.
(** b_rep_fns.cpp:197-221 [RPF_drop]. *)
Definition f_drop (args : list str) : option (option str) :=
  match args with
  | [a; t] =>
    match atoi a with
    | None => None
    | Some n =>
      let lg := Z.of_nat (length t) in
      Some (if lg =? 0 then None
            else if lg <=? Z.abs n then Some []
            else if 0 <? n then Some (skipn (Z.to_nat n) t)
            else Some (firstn (Z.to_nat (lg + n)) t))
    end
  | _ => Some None
  end.
(** b_rep_fns.cpp:1785-1897 [RPF_vtake], [RPF_vdrop], [RPF_vcount]: the arguments are joined by the
    first separator and cut again at every separator. *)
Definition revector (vseps : str) (args : list str) : list str :=
  vtoms vseps (mtov args (firstn 1 vseps)).
Definition f_vtake (vseps : str) (args : list str) : option (option str) :=
  match args with
  | [] => Some (Some [])
  | _ =>
    match revector vseps args with
    | [] => None
    | [_] => Some (Some [])
    | a :: l =>
      match atoi a with
      | None => None
      | Some n =>
        let lg := Z.of_nat (length l) in
        Some (Some (if 0 <? n then mtov (firstn (Z.to_nat n) l) (firstn 1 vseps)
                    else mtov (skipn (Z.to_nat (lg - Z.min lg (- n))) l) (firstn 1 vseps)))
      end
    end
  end.
Definition f_vdrop (vseps : str) (args : list str) : option (option str) :=
  match args with
  | [] => Some (Some [])
  | _ =>
    match revector vseps args with
    | [] => None
    | [_] => Some (Some [])
    | a :: l =>
      match atoi a with
      | None => None
      | Some n =>
        let lg := Z.of_nat (length l) in
        Some (Some (if n <? 0 then mtov (firstn (Z.to_nat (Z.max (lg + n) 0)) l) (firstn 1 vseps)
                    else mtov (skipn (Z.to_nat n) l) (firstn 1 vseps)))
      end
    end
  end.
(** b_rep_fns.cpp:415-424 [RPF_index]. *)
Definition f_index (args : list str) : option (option str) :=
  match args with
  | a :: (_ :: _) as l =>
    match atoi a with
    | None => None
    | Some p => Some (Some (if (Z.of_nat (length (tl l)) <? p) || (p <? 1) then []
                            else nth (Z.to_nat p) l []))
    end
  | _ => Some (Some [])
  end.

(** b_rep_engine.cpp:1107-1137 [RP_fneval] with the table RP_FNS: [Some None] undefined (an int too
    long, a list of blanks, the replacement of an empty text), [Some (Some None)] no value, [None]
    another function.  RP_fneval of a text without a word builds a
    std::string from a null pointer. *)
Definition fn_text (name : str) (vseps : str) (args : list str) : option (option (option str)) :=
  let one f := Some (Some (Some (f (mtov args [BLANK])))) in
  if str_eqb name (S2L "upper") then one scr_upper
  else if str_eqb name (S2L "lower") then one to_lower
  else if str_eqb name (S2L "sqz") then one sqz
  else if str_eqb name (S2L "strip") then one strip
  else if str_eqb name (S2L "take") then Some (f_take args)
  else if str_eqb name (S2L "drop") then Some (f_drop args)
  else if str_eqb name (S2L "replace") then
    Some (match args with
          | [t; []; b] => None
          | [t; f; b] => Some (Some (replace t f b))
          | _ => Some None
          end)
  else if str_eqb name (S2L "equal") then
    Some (Some (Some (match args with
                      | [a; b] => if str_eqb a b then [chr 49] else [chr 48]
                      | _ => [chr 48]
                      end)))
  else if str_eqb name (S2L "count") then Some (Some (Some (to_string (Z.of_nat (length args)))))
  else if str_eqb name (S2L "index") then Some (f_index args)
  else if str_eqb name (S2L "void") then Some (Some (Some []))
  else if str_eqb name (S2L "vtake") then Some (f_vtake vseps args)
  else if str_eqb name (S2L "vdrop") then Some (f_vdrop vseps args)
  else if str_eqb name (S2L "vcount") then
    Some (Some (Some (to_string (Z.of_nat (length (revector vseps args))))))
  else None.
Definition fneval (E : env) (t : str) : M (option str) :=
  match vtomsq [chr 40; chr 44] t with
  | [] => undefined
  | w :: args =>
    s <-- get ;;
    let name := to_lower (trim w) in
    match fn_text name (r_vseps s) args with
    | None => ret (e_fn E name args (r_world s))
    | Some None => undefined
    | Some (Some o) => ret o
    end
  end.

(** ** Expansion (b_rep_engine.cpp:1240-1390) *)
Definition PERCENT : ascii := chr 37.
Definition LBRACE : ascii := chr 123.
Definition RBRACE : ascii := chr 125.
Definition AT : ascii := chr 64.
Definition BACKQ : ascii := chr 96.

(** b_rep_engine.cpp:569-584 [RP_extract]: the text before the next [ch] and what follows it. *)
Definition extract (ch : ascii) (s : str) : option (str * str) :=
  let '(w, r) := span (fun c => negb (Ascii.eqb c ch)) s in
  match r with [] => None | _ :: r' => Some (w, r') end.

(** b_rep_engine.cpp:1034-1076 [RP_extractpar]. *)
Fixpoint extractpar (s acc : str) (nb : nat) (instr : bool) : option (str * str) :=
  match s with
  | [] => None
  | c :: s' =>
    if is 34 c then extractpar s' (acc ++ [c]) nb (negb instr)
    else if instr then extractpar s' (acc ++ [c]) nb instr
    else if is 41 c then
      if Nat.leb nb 1 then Some (acc, s') else extractpar s' (acc ++ [c]) (nb - 1) instr
    else if is 40 c then extractpar s' (acc ++ [c]) (S nb) instr
    else if Nat.eqb nb 0 && negb (word_char c) && negb (is 32 c) then None
    else extractpar s' (acc ++ [c]) nb instr
  end.

Definition special (c : ascii) : bool := is 37 c || is 123 c || is 64 c.

(** The functions of the level below (a level is the bound on nested calls and loops). *)
Record fns := {
  f_expand : str -> M str;
  f_exec : str -> carg -> ascii -> M Z;
  f_loop : nat -> M Z;
  f_back : str -> M Z
}.

(** b_rep_engine.cpp:602-660 [RP_gmacro]. *)
Definition inner (R : fns) (w : str) : M str :=
  if existsb special w then f_expand R w else ret w.
Definition gmacro (R : fns) (w : str) : M (option str) :=
  tmp <-- inner R w ;;
  s <-- get ;;
  let size := Z.of_nat (length (r_argv s)) - 1 in
  match tmp with
  | c :: _ =>
    if isdigit c then
      match atoi tmp with
      | None => undefined
      | Some 0 => ret (Some (to_string (size - r_arg0 s)))
      | Some n =>
        let p := n + r_arg0 s in
        if (p <? 0) || (size <? p) then ret None
        else ret (Some (nth (Z.to_nat p) (r_argv s) []))
      end
    else if is 42 c then
      if (r_arg0 s <? -1) || (size <? r_arg0 s) then undefined
      else ret (Some (mtov (skipn (Z.to_nat (r_arg0 s + 1)) (r_argv s)) [chr 59]))
    else ret (macro s tmp)
  | [] => ret (macro s tmp)
  end.

(** b_rep_engine.cpp:866-931 [RP_eval]. *)
Definition eval (E : env) (R : fns) (t : str) : M str :=
  match t with
  | c :: t' =>
    if is_dollar c then
      let inv := match t' with d :: _ => is 33 d | [] => false end in
      let a := if inv then tl t' else t' in
      let '(name, a') := get_arg0 a 30 in
      let off := (length name + (if inv then 0 else 1))%nat in
      s <-- get ;;
      modify (set_rt 0) ;;;
      rc <-- f_exec R name (if Nat.leb off (length a') then Arg (skipn off a') false else Past) c ;;
      modify (set_rt (r_rt s)) ;;;
      ret (if xorb (rc <? 0) inv then [chr 48] else [chr 49])
    else if is 61 c then unmodelled
    else s <-- get ;; ret (e_lec E t (r_world s))
  | [] => s <-- get ;; ret (e_lec E t (r_world s))
  end.
(** b_rep_engine.cpp:672-689 [RP_gcmd]; 1148-1168 [RP_gfn]. *)
Definition gcmd (E : env) (R : fns) (w : str) : M str := t <-- inner R w ;; eval E R t.
Definition gfn (E : env) (R : fns) (w : str) : M (option str) := t <-- inner R w ;; fneval E t.

(** Modifiers of a macro: '!' lower case, '#' upper case, '-' only letters, digits and '_'. *)
Definition modifier (c : ascii) : option (str -> str) :=
  if is 33 c then Some to_lower else if is 35 c then Some scr_upper
  else if is 45 c then Some asqz else None.

(** b_rep_engine.cpp:1247-1381: the loop on the characters; [n] bounds the number of characters. *)
Fixpoint scan (E : env) (R : fns) (n : nat) (s acc : str) : M str :=
  match n with
  | O => ret acc
  | S n' =>
    match s with
    | [] => ret acc
    | c :: r =>
      if Ascii.eqb c PERCENT then
        match r with
        | d :: r' =>
          if Ascii.eqb d PERCENT then scan E R n' r' (acc ++ [PERCENT])
          else
            let '(f, r2, last) := match modifier d with
                                  | Some f => (f, r', d)
                                  | None => (fun x : str => x, r, c)
                                  end in
            match extract PERCENT r2 with
            | Some (w, r3) =>
              o <-- gmacro R w ;;
              let v := match o with Some v => v | None => PERCENT :: w ++ [PERCENT] end in
              scan E R n' r3 (acc ++ f v)
            | None => scan E R n' r2 (acc ++ [last])
            end
        | [] => ret (acc ++ [PERCENT])
        end
      else if Ascii.eqb c LBRACE then
        match r with
        | [] => undefined
        | d :: r' =>
          if Ascii.eqb d LBRACE then scan E R n' r' (acc ++ [LBRACE])
          else match extract RBRACE r with
               | Some (w, r3) => v <-- gcmd E R w ;; scan E R n' r3 (acc ++ v)
               | None => scan E R n' r' acc
               end
        end
      else if Ascii.eqb c AT then
        match r with
        | d :: r' =>
          if Ascii.eqb d AT then scan E R n' r' (acc ++ [AT])
          else match extractpar r [] O false with
               | Some (w, r3) =>
                 o <-- gfn E R w ;;
                 match o with
                 | Some v => scan E R n' r3 (acc ++ v)
                 | None => scan E R n' r (acc ++ [AT])
                 end
               | None => scan E R n' r (acc ++ [AT])
               end
        | [] => ret (acc ++ [AT])
        end
      else
        st <-- get ;;
        if r_nopar st && Ascii.eqb c BACKQ then
          match r with
          | [] => undefined
          | d :: r' =>
            if Ascii.eqb d BACKQ then scan E R n' r' (acc ++ [BACKQ])
            else match extract BACKQ r with
                 | Some (w, r3) => scan E R n' r3 (acc ++ w)
                 | None => scan E R n' r' acc
                 end
          end
        else scan E R n' r (acc ++ [c])
    end
  end.
Definition expand_F (E : env) (R : fns) (s : str) : M str := scan E R (S (length s)) s [].

(** ** Execution of the lines (b_rep_engine.cpp:1407-1536 [RP_ReportExec_tbl]) *)
Definition exec_tbl (R : fns) (id : nat) : M Z :=
  s <-- get ;;
  modify (set_cur (Some id)) ;;;
  rt <-- f_loop R id ;;
  modify (fun s' => set_cur (r_cur s) (add_event (Text [chr 10]) s')) ;;;
  ret rt.

(** b_rep_engine.cpp:1642-1707 [B_ReportLine] with [cleanup = 1]. *)
Definition close_top : M unit :=
  modify (fun s => if r_depth s =? 0 then set_macros [] s else s).
Definition report_line (E : env) (R : fns) (t : str) : M Z :=
  s <-- get ;;
  modify (fun s => let s := if r_depth s =? 0 then set_world (e_top E (r_world s)) s else s in
                   set_depth (r_depth s + 1) (set_args [S2L "temp.rep"] 0 s)) ;;;
  id <-- new_file (vtoms [chr 10] t) ;;
  rc <-- exec_tbl R id ;;
  free_file id ;;;
  modify (fun s' => set_args (r_argv s) (r_arg0 s) (set_depth (r_depth s' - 1) s')) ;;;
  close_top ;;;
  ret rc.

(** b_rep_engine.cpp:1553-1570 [RP_ReportExec_1], 1584-1628 [B_ReportExec]. *)
Definition report_file (E : env) (R : fns) (name : str) : M Z :=
  s <-- get ;;
  match e_file E name (r_world s) with
  | None => ret (-1)
  | Some lines =>
    id <-- new_file lines ;;
    rc <-- exec_tbl R id ;;
    free_file id ;;;
    modify (set_cur None) ;;;
    ret rc
  end.
Definition report_exec (E : env) (R : fns) (a : carg) : M Z :=
  with_words a (fun argv =>
    match argv with
    | [] => close_top ;;; ret (-1)
    | file :: _ =>
      s <-- get ;;
      modify (fun s => let s := if r_depth s =? 0 then set_world (e_top E (r_world s)) s else s in
                       set_depth (r_depth s + 1) (set_args argv 0 s)) ;;;
      rc <-- report_file E R file ;;
      modify (fun s' => set_args (r_argv s) (r_arg0 s) (set_depth (r_depth s' - 1) s')) ;;;
      close_top ;;;
      ret rc
    end).

(** ** Commands *)
Definition current : M nat := fun s =>
  match r_cur s with Some id => Done id s | None => Undefined end.
Definition with_text (a : carg) (f : str -> M Z) : M Z :=
  match a with Past => undefined | Arg t _ => f t end.

(** b_rep_cmds.cpp:196-238 [RP_goto_label]: the commands of the lines that follow the current
    position, [n] bounds the number of lines. *)
Definition command_of (line : str) : option str :=
  match line with
  | c :: ((d :: _) as t) => if is_dollar c && negb (Ascii.eqb d c) && negb (mem blank4 d) then Some t else None
  | _ => None
  end.
Fixpoint find_label (n : nat) (id : nat) (command parm : str) : M Z :=
  match n with
  | O => ret (-3)
  | S n' =>
    o <-- read_line id ;;
    match o with
    | None => ret (-3)
    | Some line =>
      match command_of line with
      | None => find_label n' id command parm
      | Some t =>
        match splitline t with
        | SplitFail => ret (-1)
        | SplitUndefined => undefined
        | Split name arg _ =>
          if str_eqb (to_lower name) command && str_eqb parm (to_lower arg) then ret 0
          else find_label n' id command parm
        end
      end
    end
  end.
Definition goto_label (command parm : str) : M Z :=
  id <-- current ;;
  f <-- file_of id ;;
  (if str_eqb command (S2L "label") then set_pos id 0 else ret tt) ;;;
  find_label (S (length (rf_lines f))) id command (to_lower (sqz parm)).

(** b_rep_cmds.cpp:243-276 [RP_goto]. *)
Definition goto (a : carg) : M Z :=
  with_text a (fun t =>
    match vtomsq B_SEPS t with
    | [] => ret (-3)
    | [l] => goto_label (S2L "label") l
    | l :: v :: _ =>
      match atoi v with
      | None => undefined
      | Some rc => if (rc =? 0) || (rc =? -1) then ret rc else goto_label (S2L "label") l
      end
    end).

(** b_rep_foreach.cpp [RP_foreach_next_index]. *)
Definition list_name (name : str) : str := S2L "FOREACH__" ++ name.
Definition next_index (E : env) (R : fns) (name : str) : M Z :=
  t <-- f_expand R (S2L "@vcount(%" ++ list_name name ++ S2L "%)") ;;
  match atoi t with
  | None => undefined
  | Some n =>
    if n =? 0 then
      undef_1 name ;;;
      undef_1 (list_name name) ;;;
      restore name ;;;
      restore (list_name name) ;;;
      ret (-1)
    else
      report_line E R (S2L "$define " ++ name ++ S2L " @vtake(1,%" ++ list_name name ++ S2L "%)") ;;;
      report_line E R (S2L "$define " ++ list_name name ++ S2L " @vdrop(1,%" ++ list_name name ++ S2L "%)") ;;;
      ret (n - 1)
  end.

(** b_rep_foreach.cpp [RP_foreach]. *)
Definition foreach (E : env) (R : fns) (a : carg) : M Z :=
  with_text a (fun t =>
    match splitline t with
    | SplitFail => ret (-1)
    | SplitUndefined => undefined
    | Split name list _ =>
      save name ;;;
      save (list_name name) ;;;
      define_1 name list ;;;
      report_line E R (S2L "$define " ++ list_name name ++ S2L " %" ++ name ++ S2L "%") ;;;
      rc <-- next_index E R name ;;
      (if rc <? 0 then goto_label (S2L "next") name else ret 0) ;;;
      ret 0
    end).

(** b_rep_foreach.cpp [RP_foreach_goto_next]: one line back at a time. *)
Definition back_F (E : env) (R : fns) (label : str) : M Z :=
  id <-- current ;;
  f <-- file_of id ;;
  if Nat.leb (rf_pos f) 1 then ret (-3)
  else
    set_pos id (rf_pos f - 2) ;;;
    o <-- read_line id ;;
    match o with
    | None => undefined
    | Some line =>
      match command_of line with
      | None => f_back R label
      | Some t =>
        match splitline t with
        | SplitFail => ret (-1)
        | SplitUndefined => undefined
        | Split name arg _ =>
          match str_eqb (to_lower name) (S2L "foreach"), vtoms [BLANK] arg with
          | true, p :: _ =>
            if str_eqb label p
            then rc <-- next_index E R label ;; ret (if 0 <? rc then 0 else rc)
            else f_back R label
          | _, _ => f_back R label
          end
        end
      end
    end.
(** b_rep_foreach.cpp [RP_foreach_next]. *)
Definition foreach_next (E : env) (R : fns) (a : carg) : M Z :=
  with_text a (fun t =>
    id <-- current ;;
    f <-- file_of id ;;
    rc <-- match vtomsq B_SEPS t with
           | [l] => f_back R (sqz l)
           | _ => ret (-3)
           end ;;
    if rc =? 0 then ret 0 else id' <-- current ;; set_pos id' (rf_pos f) ;;; ret 0).

(** b_rep_proc.cpp:100-109 [RP_proc_find], 138-150 [RP_proc_delete], 161-180 [RP_proc_create],
    119-130 [RP_proc_is_procend], 204-251 [RP_procdef]. *)
Definition proc_find (l : list proc) (name : str) : option proc :=
  List.find (fun p => str_eqb (p_name p) name) l.
Definition is_procend (line : str) : bool := str_eqb (to_lower (sqz line)) (S2L "$procend").
Fixpoint to_procend (lines : list str) : option (list str) :=
  match lines with
  | [] => None
  | l :: lines' =>
    if is_procend l then Some []
    else match to_procend lines' with Some b => Some (l :: b) | None => None end
  end.
Definition proc_delete (name : str) : M unit := fun s =>
  match proc_find (r_procs s) name with
  | None => Done tt s
  | Some p =>
    Done tt (let s1 := match p_file p with
                       | None => s
                       | Some id => set_files (file_del (r_files s) id) (r_next s) s
                       end in
             set_procs (filter (fun q => negb (Nat.eqb (p_id q) (p_id p))) (r_procs s)) s1)
  end.
Definition procdef (a : carg) : M Z :=
  with_text a (fun t =>
    match splitline t with
    | SplitFail => ret (-1)
    | SplitUndefined => undefined
    | Split name list _ =>
      id <-- current ;;
      proc_delete name ;;;
      f <-- file_of id ;;
      let rest := skipn (rf_pos f) (rf_lines f) in
      fid <-- match to_procend rest with
              | Some body =>
                set_pos id (rf_pos f + length body + 1)%nat ;;;
                i <-- new_file body ;; ret (Some i)
              | None => set_pos id (Nat.max (rf_pos f) (length (rf_lines f))) ;;; ret None
              end ;;
      s <-- get ;;
      modify (fun s => set_procs ({| p_id := r_next s; p_name := name;
                                     p_parms := vtoms [BLANK] list; p_file := fid |} :: r_procs s)
                       (set_files (r_files s) (S (r_next s)) s)) ;;;
      ret 0
    end).

(** b_rep_proc.cpp:266-323 [RP_procexec]. *)
Fixpoint define_all (l : list (str * str)) : M Z :=
  match l with
  | [] => ret 0
  | (n, v) :: l' => rc <-- define_1 n v ;; if rc <? 0 then ret rc else define_all l'
  end.
Definition bindings (formals actuals : list str) : option (list (str * str)) :=
  if Nat.leb (length actuals) (length formals) then Some (combine formals actuals)
  else match formals with
       | [] => None
       | _ => let k := (length formals - 1)%nat in
              Some (combine formals (firstn k actuals ++ [mtov (skipn k actuals) [BLANK]]))
       end.
Definition procexec (R : fns) (a : carg) : M Z :=
  with_text a (fun t =>
    match splitline t with
    | SplitFail => ret (-1)
    | SplitUndefined => undefined
    | Split name list _ =>
      s <-- get ;;
      match proc_find (r_procs s) name with
      | None => ret (-1)
      | Some p =>
        rc <-- save_list (p_parms p) ;;
        if rc <? 0 then ret rc
        else
          match bindings (p_parms p) (vtomsq B_SEPS list) with
          | None => undefined
          | Some b =>
            rc <-- define_all b ;;
            if rc <? 0 then ret rc
            else match p_file p with
                 | None => undefined
                 | Some fid =>
                   set_pos fid 0 ;;;
                   rc <-- exec_tbl R fid ;;
                   s' <-- get ;;
                   if existsb (fun q => Nat.eqb (p_id q) (p_id p)) (r_procs s')
                   then restore_list (p_parms p) ;;; ret rc
                   else undefined
                 end
          end
      end
    end).

(** b_rep_cmds.cpp:120-143 [RP_onerror]. *)
Definition onerror_1 (w : str) (s : rep) : rep :=
  let u := scr_upper w in
  if str_eqb u (S2L "IGNORE") then set_rt 0 s
  else if str_eqb u (S2L "RETURN") then set_rt (-2) s
  else if str_eqb u (S2L "ABORT") then set_rt (-3) s
  else if str_eqb u (S2L "QUITODE") then set_rt (-4) s
  else if str_eqb u (S2L "DISPLAY") then set_print 2 s
  else if str_eqb u (S2L "PRINT") then set_print 1 s
  else if str_eqb u (S2L "NOPRINT") then set_print 0 s
  else s.

(** b_rep_cmds.cpp:67-113 [RP_repeat]: the line is expanded once more; the command is the text
    between the first two quotes; the buffer is as long as the command, plus ten times the longest
    argument, plus 64. *)
Definition longest (l : list str) : nat := fold_right (fun w m => Nat.max (length w) m) O l.
Fixpoint repeat_loop (E : env) (R : fns) (cmd : str) (size : nat) (l : list str) : M Z :=
  match l with
  | [] => ret 0
  | w :: l' =>
    s <-- get ;;
    let c := replace cmd (r_rptstr s) w in
    if Nat.leb size (length c) then undefined
    else rc <-- report_line E R c ;; if rc =? 0 then repeat_loop E R cmd size l' else ret 0
  end.
Definition repeat_cmd (E : env) (R : fns) (a : carg) : M Z :=
  with_text a (fun t =>
    line <-- f_expand R t ;;
    match extract QUOTE line with
    | None => ret (-1)
    | Some (_, rest) =>
      let '(cmd, tail) := match extract QUOTE rest with Some (c, r) => (c, r) | None => (rest, rest) end in
      match ainit tail with
      | None => unmodelled
      | Some args => repeat_loop E R cmd (length cmd + 10 * longest args + 64)%nat args
      end
    end).

(** b_rep_cmds.cpp:453-462 [RP_shift_args]; 387-445 the switches. *)
Definition shift (a : carg) : M Z :=
  with_text a (fun t =>
    match strip t with
    | [] => modify (fun s => set_args (r_argv s) (r_arg0 s + 1) s) ;;; ret 0
    | u => match atoi u with
           | None => undefined
           | Some n => modify (fun s => set_args (r_argv s) (r_arg0 s + n) s) ;;; ret 0
           end
    end).
Definition switch (a : carg) (f : bool -> rep -> rep) : M Z :=
  with_text a (fun t =>
    modify (f (match t with
               | c :: _ => negb (is 48 (upper_char c) || is 78 (upper_char c))
               | [] => true
               end)) ;;; ret 0).

(** b_rep_engine.cpp:446-530 [RP_find_fn], [RP_exec_fn] with the table of b_rep_syntax.cpp:40-80. *)
Definition external (E : env) (name : str) (a : carg) (fs : ascii) : M Z :=
  match e_cmd E name fs with
  | None => ret (-1)
  | Some f =>
    match a with
    | Past => unmodelled
    | Arg t _ => fun s =>
      let '(o, w) := f t (r_world s) in
      let s' := set_world w (add_event (Ran name t) s) in
      match o with Some rc => Done rc s' | None => Thrown s' end
    end
  end.
Definition exec_F (E : env) (R : fns) (name0 : str) (a : carg) (fs : ascii) : M Z :=
  let name := to_lower (trim name0) in
  if str_eqb name (S2L "label") then ret 0
  else if str_eqb name (S2L "goto") then goto a
  else if str_eqb name (S2L "abort") then ret (-3)
  else if str_eqb name (S2L "return") then ret (-2)
  else if str_eqb name (S2L "onerror") then
    with_words a (fun l => modify (fun s => fold_left (fun s w => onerror_1 w s) l s) ;;; ret 0)
  else if str_eqb name (S2L "shift") || str_eqb name (S2L "shift_args") then shift a
  else if str_eqb name (S2L "define") then define a
  else if str_eqb name (S2L "undef") || str_eqb name (S2L "undefine") then with_words a undef_loop
  else if str_eqb name (S2L "indent") then switch a set_indent
  else if str_eqb name (S2L "multiline") then switch a set_multi
  else if str_eqb name (S2L "noparsing") then switch a set_nopar
  else if str_eqb name (S2L "repeat") then repeat_cmd E R a
  else if str_eqb name (S2L "repeatstring") then
    with_text a (fun t => modify (set_rptstr (match sqz t with [] => [chr 95] | u => u end)) ;;; ret 0)
  else if str_eqb name (S2L "vseps") then
    with_text a (fun t => modify (set_vseps (match t with [] => [chr 59; chr 44; BLANK] | _ => t end)) ;;; ret 0)
  else if str_eqb name (S2L "foreach") then foreach E R a
  else if str_eqb name (S2L "next") then foreach_next E R a
  else if str_eqb name (S2L "procdef") then procdef a
  else if str_eqb name (S2L "procexec") then procexec R a
  else if str_eqb name (S2L "reportexec") then (if is 36 fs then report_exec E R a else unmodelled)
  else if str_eqb name (S2L "quit") || str_eqb name (S2L "quitode") || str_eqb name (S2L "ask") then unmodelled
  else external E name a fs.

(** b_rep_engine.cpp:541-556 [RP_err_dump]: the name and the argument are part of a format, a '%'
    that is not doubled reads an argument that does not exist. *)
Fixpoint safe_format (s : str) : bool :=
  match s with
  | c :: r =>
    if Ascii.eqb c PERCENT then
      match r with d :: r' => Ascii.eqb d PERCENT && safe_format r' | [] => false end
    else safe_format r
  | [] => true
  end.
Definition err_dump (name arg : str) : M unit := fun s =>
  if r_print s =? 0 then Done tt s
  else if safe_format arg then Done tt (add_event (Failed name) s) else Undefined.

(** b_rep_engine.cpp:1475-1516: what a return code leads to; [None]: the next line. *)
Definition after (ignore : bool) (name arg : str) (rc : Z) : M (option Z) :=
  if rc =? -1 then
    if ignore then ret None
    else
      err_dump name arg ;;;
      s <-- get ;;
      ret (if r_rt s =? 0 then None else if r_rt s =? -2 then Some 0 else Some (r_rt s))
  else if rc =? -2 then ret (Some 0)
  else if (rc =? -3) || (rc =? -4) then ret (Some rc)
  else ret None.

(** b_rep_engine.cpp:1419-1524: one line, then the others. *)
Definition is_command (line : str) : bool :=
  match line with
  | c :: d :: _ => is_dollar c && negb (Ascii.eqb d c)
  | [c] => is_dollar c
  | [] => false
  end.
Definition line_F (E : env) (R : fns) (id : nat) (line : str) : M (option Z) :=
  if is_command line then
    match command_of line with
    | None => ret None
    | Some t =>
      let ignore := match t with d :: _ => is 45 d | [] => false end in
      match splitline (if ignore then tl t else t) with
      | SplitFail => modify (set_cur (Some id)) ;;; after ignore [] [] (-1)
      | SplitUndefined => undefined
      | Split name arg room =>
        rc <-- match name with
               | [] => ret 0
               | _ => f_exec R name (Arg arg room) (hd BLANK line)
               end ;;
        modify (set_cur (Some id)) ;;;
        after ignore name arg rc
      end
    end
  else modify (add_event (Text (line ++ [chr 10]))) ;;; ret None.
Definition loop_F (E : env) (R : fns) (id : nat) : M Z :=
  o <-- read_raw id ;;
  match o with
  | None => ret 0
  | Some t0 =>
    t1 <-- f_expand R t0 ;;
    line <-- indent t1 ;;
    r <-- line_F E R id line ;;
    match r with
    | Some rt => ret rt
    | None => f_loop R id
    end
  end.

(** ** Levels *)
Definition late {A} : M A := fun _ => Late.
Fixpoint level (E : env) (n : nat) : fns :=
  match n with
  | O => {| f_expand := fun _ => late; f_exec := fun _ _ _ => late;
            f_loop := fun _ => late; f_back := fun _ => late |}
  | S n' => let R := level E n' in
            {| f_expand := expand_F E R; f_exec := exec_F E R;
               f_loop := loop_F E R; f_back := back_F E R |}
  end.

(** Entry points, with a bound on the number of nested steps: B_ReportLine, B_ReportExec, and
    RP_expand (used by tests and by the other modules). *)
Definition run_text (E : env) (n : nat) (t : str) : M Z := report_line E (level E n) t.
Definition run_report (E : env) (n : nat) (arg : str) : M Z := report_exec E (level E n) (Arg arg false).
Definition expand (E : env) (n : nat) (t : str) : M str := f_expand (level E n) t.

End Engine.
Arguments env : clear implicits.
Arguments rep : clear implicits.
Arguments fns : clear implicits.
