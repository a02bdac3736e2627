(** Import of variables from text files: the rules on names (api/io/k_rules.cpp), the loop common to the formats
    (api/io/k_imain.cpp:77-190) and the format ASCII (api/io/k_iasc.cpp:42-86).
    Simplifications: as in M_Ascii for the reader; files hold ASCII characters and no NUL; messages, the trace of the renaming and the
    file written at the end (k_imain.cpp:371-377, C29) are left out. The reader of a rotated file (k_irasc.cpp) is given by the values
    it reads. *)
From Coq Require Import ZArith Ascii String List Bool Floats.SpecFloat.
From Verif Require Import M_Base M_Report M_Time M_Names M_Lex M_Compile M_Bytes M_Exec M_Double M_Decimal M_Kdb M_Grep M_Ascii.
Import ListNotations.
Open Scope Z_scope.

(** * Rules *)

(** A rule: the pattern (IMP_pat) and the transcoding (IMP_rule). *)
Definition rules := list (str * str).
(** k_rules.cpp:78-88. *)
Definition default_rules : rules := [(S2L "*", repeat (chr 43) 20)].
(** fgets(buf, 256, fd), k_rules.cpp:60: at most 255 characters, until the line feed; and the rest of the file. *)
Fixpoint fgets (n : nat) (s : str) : str * str :=
  match n, s with
  | S k, c :: s' => if code c =? 10 then ([c], s') else let '(a, b) := fgets k s' in (c :: a, b)
  | _, _ => ([], s)
  end.
(** k_rules.cpp:61-65: on an empty text, the character before the buffer is read. *)
Definition strip_end (s : str) : res str :=
  match skip_spaces (rev s) with [] => UB | r => Ok (rev r) end.
(** k_rules.cpp:59-75. *)
Fixpoint rule_lines (fuel : nat) (s : str) : res rules :=
  match fuel, s with
  | S k, _ :: _ =>
    let '(l, s') := fgets 255 s in
    do t <- strip_end l;
    do rs <- rule_lines k s';
    Ok (match vtoms [SP; chr 9] t with [p; r] => (p, r) :: rs | _ => rs end)
  | _, _ => Ok []
  end.
(** k_rules.cpp:44-94 [IMP_readrule]; None: no name of file, or a file that does not exist. *)
Definition IMP_readrule (file : option str) : res rules :=
  do rs <- match file with None => Ok [] | Some s => rule_lines (length s) s end;
  Ok (match rs with [] => default_rules | _ => rs end).
(** k_rules.cpp:107-116 [IMP_grep]. *)
Fixpoint find_rule (rs : rules) (name : str) : res (option str) :=
  match rs with
  | [] => Ok None
  | (p, r) :: rs' => do b <- grep_gnl p name false (chr 42); if b then Ok (Some r) else find_rule rs' name
  end.
(** k_rules.cpp:143-166: [room] is K_MAX_NAME - o. *)
Fixpoint transcode (rule name : str) (room : nat) : str :=
  match rule with
  | [] => []
  | c :: rule' =>
    match room with
    | O => []
    | S k =>
      if code c =? 45 then match name with [] => [] | _ :: n => transcode rule' n room end
      else if code c =? 43 then match name with [] => [] | x :: n => x :: transcode rule' n k end
      else c :: transcode rule' name k
    end
  end.
(** k_rules.cpp:134-174 [IMP_change]; None: no pattern. *)
Definition IMP_change (rs : rules) (name : str) : res (option str) :=
  do r <- find_rule rs name; Ok (match r with None => None | Some r => Some (transcode r name 20) end).

(** * Variables *)

Section Values.
Context {F : Type}.
(** kdb.h:1192-1202 [set] in a database of variables whose sample has the length of the value. *)
Definition set_var (db : smap (list F)) (name : str) (v : list F) : res (smap (list F)) :=
  match set_in VARIABLES db name v with Some db' => Ok db' | None => Throw end.
(** k_imain.cpp:131-146: what is done with a variable that has been read. *)
Definition import_one (rs : rules) (db : smap (list F)) (name : str) (v : list F) : res (smap (list F)) :=
  do o <- IMP_change rs name; match o with None => Ok db | Some n => set_var db n v end.
(** k_imain.cpp:148-184: one value after the other; [na] is IODE_NAN. *)
Definition upd (l : list F) (t : Z) (x : F) : list F := firstn (Z.to_nat t) l ++ x :: skipn (S (Z.to_nat t)) l.
Definition import_value (na : F) (nb : Z) (rs : rules) (db : smap (list F)) (name : str) (shift : Z) (x : F) : res (smap (list F)) :=
  if (shift <? 0) || (nb <? shift) then Ok db
  else do o <- IMP_change rs name;
    match o with
    | None => Ok db
    | Some n =>
      let key := to_key (mode_of VARIABLES) n in
      do db1 <- match M_Kdb.find key db with Some _ => set_var db n (repeat na (Z.to_nat nb)) | None => Ok db end;
      (* k_wsvar.cpp:300-342 [KV_set] *)
      match M_Kdb.find key db1 with
      | None => Ok db1
      | Some v => if nb <=? shift then Ok db1 else Ok (M_Kdb.put key (upd v shift x) db1)
      end
    end.
Fixpoint import_values (na : F) (nb : Z) (rs : rules) (db : smap (list F)) (l : list (str * Z * F)) : res (smap (list F)) :=
  match l with
  | [] => Ok db
  | (n, t, x) :: l' => do db' <- import_value na nb rs db n t x; import_values na nb rs db' l'
  end.
End Values.

(** * The format ASCII *)

(** import.h:42-44. *)
Definition IMP_KEYS : list str := [S2L "sample"].
(** k_iasc.cpp:79. *)
Fixpoint read_row (n : nat) (y : yy) : io (list dbl * yy) :=
  match n with
  | O => Done ([], y)
  | S k => try '(x, y1) <- read_real IMP_KEYS y; try '(l, y2) <- read_row k y1; Done (x :: l, y2)
  end.
(** k_iasc.cpp:67-84 [read_variable] with k_imain.cpp:122-147. *)
Fixpoint import_loop (fuel : nat) (nb : nat) (rs : rules) (db : smap (list dbl)) (y : yy) : io (smap (list dbl)) :=
  match fuel with
  | O => Unmodelled
  | S k =>
    try '(l, y1) <- lex IMP_KEYS y;
    match l with
    | L_TYPE Y_EOF => Done db
    | L_TYPE Y_WORD =>
      if str_eqb (text y1) (S2L "na") then import_loop k nb rs db y1
      else
        try '(v, y2) <- read_row nb y1;
        try db' <- of_res (import_one rs db (firstn 79 (text y1)) v);
        import_loop k nb rs db' y2
    | _ => import_loop k nb rs db y1
    end
  end.
(** k_imain.cpp:77-198 [IMP_InterpretVar] with k_iasc.cpp:42-53: the sample is the one of the file. When the header is wrong, the null
    pointer [kdb] is used (k_imain.cpp:193). *)
Definition import_ascii (rulefile : option str) (file : str) : io vdb :=
  try rs <- of_res (IMP_readrule rulefile);
  try '(l, y) <- lex IMP_KEYS (opened file);
  match l with
  | L_KEY w =>
    if str_eqb w (S2L "sample") then
      try '(s, y1) <- read_smpl IMP_KEYS y;
      match s with
      | None => Undefined
      | Some s => try db <- import_loop (fuel_of y1) (Z.to_nat (s_nb s)) rs [] y1; Done (mkVdb (Some s) db)
      end
    else Undefined
  | _ => Undefined
  end.
(** k_imain.cpp:148-190 with k_irasc.cpp: [l] are the names, positions and values read. *)
Definition import_rotated (rs : rules) (nb : Z) (l : list (str * Z * dbl)) : res (smap (list dbl)) := import_values d_na nb rs [] l.
