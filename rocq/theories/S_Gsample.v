(** What a generalised sample means: its columns, written down from the manual, without the compiler. *)
From Coq Require Import ZArith Ascii String List Bool.
From Verif Require Import M_Base M_Time M_Names M_Ascii M_Gsample S_Time.
Import ListNotations.
Open Scope Z_scope.

(** * The language *)

(** A number, the number of sub-periods of a year (PER) or the current sub-period (SUB). *)
Inductive count := Num (n : Z) | PerYear | SubNow.
(** A year, or the first, last or current period of the sample; with 1: the first sub-period of that year. *)
Inductive anchor := AYear (y : Z) | ABos | AEos | ANow | ABos1 | AEos1 | ANow1.
(** A sub-period (its letter, of either case) is written only after a year. Moves: < (true) or > and a count. *)
Record gper := mkGP { ga : anchor; gsub : option (ascii * Z); gmoves : list (bool * count) }.
(** One file, or an operation on two files. *)
Inductive files := F1 (f : Z) | F2 (f : Z) (o : gop) (g : Z).
(** What may follow a column or a group: a shift, files between brackets, a repetition (minus sign and increment). *)
Inductive suffix :=
| Shift (b : bool) (n : count)
| Files (f : files) (l : list files)
| Repeat (n : count) (incr : option (bool * count)).
(** Items separated by semicolons; an item is a period, an operation on two periods or a group, with suffixes. *)
Inductive gs := Last (i : item) | More (i : item) (g : gs)
with item := Item (a : atom) (ss : list suffix)
with atom := One (p : gper) | Two (p : gper) (o : gop) (q : gper) | Group (g : gs).

(** * Its text *)

Definition p_count (n : count) : str :=
  match n with Num n => dec_nonneg n | PerYear => S2L "PER" | SubNow => S2L "SUB" end.
Definition p_anchor (a : anchor) : str :=
  match a with
  | AYear y => dec_nonneg y | ABos => S2L "BOS" | AEos => S2L "EOS" | ANow => S2L "NOW"
  | ABos1 => S2L "BOS1" | AEos1 => S2L "EOS1" | ANow1 => S2L "NOW1"
  end.
Definition p_sign (b : bool) : str := S2L (if b then "<" else ">")%string.
Definition p_moves (l : list (bool * count)) : str := flat_map (fun '(b, n) => p_sign b ++ p_count n) l.
Definition p_sub (o : option (ascii * Z)) : str := match o with Some (c, z) => c :: dec_nonneg z | None => [] end.
Definition p_per (p : gper) : str := p_anchor (ga p) ++ p_sub (gsub p) ++ p_moves (gmoves p).
Definition p_op (o : gop) : str :=
  S2L (match o with NOP => "" | DIFF => "-" | MDIFF => "--" | MEAN => "^" | GRT => "/" | MGRT => "//" | ADD => "+"
       | BASE => "=" end)%string.
Definition p_files (f : files) : str :=
  match f with F1 f => dec_nonneg f | F2 f o g => dec_nonneg f ++ p_op o ++ dec_nonneg g end.
Definition p_suffix (s : suffix) : str :=
  match s with
  | Shift b n => p_sign b ++ p_count n
  | Files f l => S2L "[" ++ p_files f ++ flat_map (fun f => S2L ";" ++ p_files f) l ++ S2L "]"
  | Repeat n i => S2L ":" ++ p_count n ++
      match i with Some (minus, k) => S2L "*" ++ (if (minus : bool) then S2L "-" else []) ++ p_count k | None => [] end
  end.
Fixpoint p_gs (g : gs) : str := match g with Last i => p_item i | More i g => p_item i ++ S2L ";" ++ p_gs g end
with p_item (i : item) : str := match i with Item a ss => p_atom a ++ flat_map p_suffix ss end
with p_atom (a : atom) : str :=
  match a with One p => p_per p | Two p o q => p_per p ++ p_op o ++ p_per q | Group g => S2L "(" ++ p_gs g ++ S2L ")" end.

(** * Its columns *)

(** The number of sub-periods; periods are numbered in order. *)
Definition subs (c : ascii) : Z :=
  if Ascii.eqb c "S" then 2 else if Ascii.eqb c "Q" then 4 else if Ascii.eqb c "M" then 12
  else if Ascii.eqb c "W" then 52 else if Ascii.eqb c "D" then 365 else 1.
(** The period [n] places further. *)
Definition further (p : period) (n : Z) : period :=
  let nb := subs (per p) in
  let o := year p * nb + (step p - 1) + n in
  mkP (o / nb) (o mod nb + 1) (per p).
(** < or > and a count: 0 goes to the first or to the last sub-period of the year. *)
Definition moved (p : period) (b : bool) (n : Z) : period :=
  if n =? 0 then mkP (year p) (if b then 1 else subs (per p)) (per p)
  else further p (if b then - n else n).

(** The workspace: its first and last periods, and the current period. *)
Record world := mkW { w_first : period; w_last : period; w_now : period }.
Definition v_count (w : world) (n : count) : Z :=
  match n with Num n => n | PerYear => subs (per (w_first w)) | SubNow => step (w_now w) end.
(** Two-digit years are those of 1950 to 2049; 100 to 199 stand for 2000 to 2099. *)
Definition full_year (y : Z) : Z := if y <? 50 then 2000 + y else if y <? 200 then 1900 + y else y.
Definition in_first (p : period) : period := mkP (year p) 1 (per p).
Definition v_anchor (w : world) (a : anchor) : period :=
  match a with
  | AYear y => mkP (full_year y) 1 "Y"
  | ABos => w_first w | AEos => w_last w | ANow => w_now w
  | ABos1 => in_first (w_first w) | AEos1 => in_first (w_last w) | ANow1 => in_first (w_now w)
  end.
Definition v_per (w : world) (p : gper) : period :=
  let a := v_anchor w (ga p) in
  let b := match gsub p with Some (c, z) => mkP (year a) z (toupper c) | None => a end in
  fold_left (fun q '(b, n) => moved q b (v_count w n)) (gmoves p) b.

(** A column: the operation, its periods (None: no second period) and its files (None: none is given). *)
Record vcol := mkV { v_op : gop; v_0 : period; v_1 : option period; v_files : option (gop * Z * Z) }.
Definition map_pers (f : period -> period) (c : vcol) : vcol := mkV (v_op c) (f (v_0 c)) (option_map f (v_1 c)) (v_files c).
Definition give (f : files) (c : vcol) : vcol :=
  mkV (v_op c) (v_0 c) (v_1 c) (Some (match f with F1 f => (NOP, f, 0) | F2 f o g => (o, f, g) end)).
(** The files of a group go to the columns that have none. *)
Definition given (o : option (list files)) (c : vcol) : list vcol :=
  match o, v_files c with Some l, None => map (fun f => give f c) l | _, _ => [c] end.
(** The i-th copy of a column: both periods move, but not the reference period of an index (=). *)
Definition copy_of (n : Z) (c : vcol) : vcol :=
  match v_op c with
  | BASE => mkV (v_op c) (further (v_0 c) n) (v_1 c) (v_files c)
  | _ => map_pers (fun p => further p n) c
  end.
Definition shifted (w : world) (ss : list suffix) (l : list vcol) : list vcol :=
  fold_left (fun l s => match s with Shift b n => map (map_pers (fun p => moved p b (v_count w n))) l | _ => l end) ss l.
Fixpoint files_of (ss : list suffix) : option (list files) :=
  match ss with [] => None | Files f l :: _ => Some (f :: l) | _ :: ss => files_of ss end.
Fixpoint repeat_of (w : world) (ss : list suffix) : Z * Z :=
  match ss with
  | [] => (1, 1)
  | Repeat n i :: _ =>
    (v_count w n, match i with Some (minus, k) => if (minus : bool) then - v_count w k else v_count w k | None => 1 end)
  | _ :: ss => repeat_of w ss
  end.
(** Copy after copy, in a copy column after column, for a column file after file. *)
Definition copies (nb incr : Z) (fs : option (list files)) (l : list vcol) : list vcol :=
  flat_map (fun i => flat_map (fun c => given fs (copy_of (i * incr) c)) l) (seqZ 0 (Z.to_nat nb)).
Fixpoint v_gs (w : world) (g : gs) : list vcol :=
  match g with Last i => v_item w i | More i g => v_item w i ++ v_gs w g end
with v_item (w : world) (i : item) : list vcol :=
  match i with
  | Item a ss => let '(nb, incr) := repeat_of w ss in copies nb incr (files_of ss) (shifted w ss (v_atom w a))
  end
with v_atom (w : world) (a : atom) : list vcol :=
  match a with
  | One p => [mkV NOP (v_per w p) None None]
  | Two p o q => [mkV o (v_per w p) (Some (v_per w q)) None]
  | Group g => v_gs w g
  end.
(** Without files the first one, the workspace, is meant. *)
Definition v_cols (w : world) (g : gs) : list vcol :=
  map (fun c => match v_files c with None => give (F1 1) c | Some _ => c end) (v_gs w g).

(** * The samples the statements are about *)

Definition letter (c : ascii) : Prop := In c (S2L "YSQMWDysqmwd").
Definition wf_count (n : count) : Prop := match n with Num n => 0 <= n <= 999999999 | _ => True end.
Definition wf_per (p : gper) : Prop :=
  (match ga p with AYear y => 0 <= y <= 999999999 | _ => gsub p = None end)
  /\ (match gsub p with Some (c, z) => letter c /\ 1 <= z <= subs (toupper c) | None => True end)
  /\ Forall (fun m => wf_count (snd m)) (gmoves p).
Definition wf_files (f : files) : Prop :=
  match f with
  | F1 f => 1 <= f <= 10
  | F2 f o g => 1 <= f <= 10 /\ 0 <= g <= 32767 /\ (o = ADD \/ o = DIFF \/ o = GRT \/ o = MEAN \/ o = BASE)
  end.
(** A repetition is asked for at least once and at most 32767 times, with a step of at most 32767. *)
Definition wf_suffix (w : world) (s : suffix) : Prop :=
  match s with
  | Shift _ n => wf_count n
  | Files f l => Forall wf_files (f :: l)
  | Repeat n i => wf_count n /\ 1 <= v_count w n <= 32767 /\
      match i with Some (_, k) => wf_count k /\ 0 <= v_count w k <= 32767 | None => True end
  end.
Definition is_shift (s : suffix) : bool := match s with Shift _ _ => true | _ => false end.
Definition is_files (s : suffix) : bool := match s with Files _ _ => true | _ => false end.
Definition is_repeat (s : suffix) : bool := match s with Repeat _ _ => true | _ => false end.
Definition at_most_one (p : suffix -> bool) (ss : list suffix) : Prop := (length (filter p ss) <= 1)%nat.
Definition starts_with_shift (ss : list suffix) : bool := match ss with s :: _ => is_shift s | [] => false end.
(** At most one list of files and one repetition; what follows a period directly with < or > belongs to that period.
    The two periods of an operation have the same periodicity. *)
Fixpoint wf_gs (w : world) (g : gs) : Prop := match g with Last i => wf_item w i | More i g => wf_item w i /\ wf_gs w g end
with wf_item (w : world) (i : item) : Prop :=
  match i with
  | Item a ss => wf_atom w a /\ Forall (wf_suffix w) ss /\ at_most_one is_files ss /\ at_most_one is_repeat ss
      /\ (match a with Group _ => True | _ => starts_with_shift ss = false end)
  end
with wf_atom (w : world) (a : atom) : Prop :=
  match a with
  | One p => wf_per p
  | Two p o q => wf_per p /\ wf_per q /\ o <> NOP /\ per (v_per w p) = per (v_per w q)
  | Group g => wf_gs w g
  end.
(** No shift to the left (by a number other than 0) of a group that has several columns. *)
Definition mild (w : world) (k : nat) (s : suffix) : Prop :=
  match s with Shift true n => v_count w n = 0 \/ (k <= 1)%nat | _ => True end.
Fixpoint mild_gs (w : world) (g : gs) : Prop := match g with Last i => mild_item w i | More i g => mild_item w i /\ mild_gs w g end
with mild_item (w : world) (i : item) : Prop :=
  match i with Item a ss => mild_atom w a /\ Forall (mild w (length (v_atom w a))) ss end
with mild_atom (w : world) (a : atom) : Prop := match a with Group g => mild_gs w g | _ => True end.

(** The period of today's date in the periodicity of the workspace, for years, quarters, months and weeks. *)
Definition today (e : genv) (c : ascii) : period :=
  let month := e_date e / 100 mod 100 in
  mkP (e_date e / 10000)
      (if Ascii.eqb c "M" then month else if Ascii.eqb c "Q" then (month + 2) / 3 else if Ascii.eqb c "W" then e_week e else 1) c.
(** The clock and the workspace of the machine are those of [w]; the calendar has at most 52 weeks. *)
Definition describes (e : genv) (w : world) : Prop :=
  (exists nb, e_sample e = Some (mkS (w_first w) (w_last w) nb))
  /\ valid_period (w_first w) /\ valid_period (w_last w) /\ valid_period (w_now w)
  /\ per (w_last w) = per (w_first w) /\ w_now w = today e (per (w_first w))
  /\ 0 < e_date e /\ In (per (w_first w)) (S2L "YQMW").
(** The columns of the compiler, seen as above. *)
Definition view (c : col) : vcol :=
  mkV (opy c) (per0 c) (match opy c with NOP => None | _ => Some (per1 c) end)
      (match opf c with Some o => Some (o, fnb0 c, fnb1 c) | None => None end).
