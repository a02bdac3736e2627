(** Variables databases: api/objs/variables.h and api/objs/k_wsvar.cpp.

    A [vworld] is a [world] (M_Kdb.v) of vectors of doubles together with the sample of each database.
    [std::shared_ptr<Sample>]: a sample is never modified in place, so sharing is not observable and
    each database simply holds an optional sample.  A vector access out of its bounds and the use of a
    null pointer are the outcome [VUndef].  Left out: LEC text arguments (M_Exec.v), files, warnings,
    [htol]/[ltoh], trends and seasonal adjustment. *)
From Coq Require Import ZArith Ascii String List Bool Lia.
From Verif Require Import M_Base M_Time M_Names M_Lex M_Compile M_Bytes M_Exec M_Kdb.
Import ListNotations.
Open Scope Z_scope.

(** variables.h:34-56 [IodeVarMode], [VariablesInitialization]. *)
Inductive vmode := LEVEL | DIFF | GROWTH_RATE | Y0Y_DIFF | Y0Y_GROWTH_RATE.
Inductive vinit := TM1 | TM1_A | EXTRA | EXTRA_A | ASIS | TM1_NA | EXTRA_NA.

Section Vars.
Variable A : arith.
(** constants.h:229: the constant 1.0e-36 of [IODE_IS_0]. *)
Variable tiny : F A.
Notation val := (F A).
Notation variable := (list (F A)).
Definition is_0 (x : val) : bool :=
  (lt A (ofZ A 0) x && lt A x tiny) || (negb (lt A (ofZ A 0) x) && negb (is_nan A x) && lt A (neg A x) tiny).

(** * One vector *)

(** [v[t]] and [v[t] = x]; [None]: out of bounds. *)
Definition read (v : variable) (t : Z) : option val :=
  if t <? 0 then None else nth_error v (Z.to_nat t).
Definition write (v : variable) (t : Z) (x : val) : option variable :=
  match read v t with None => None | Some _ => Some (upd_list (Z.to_nat t) (fun _ => x) v) end.

(** k_wsvar.cpp:228, 231-240, 253-254: the distance to the reference period. *)
Definition lag_of (mode : vmode) (pernb : Z) : Z :=
  match mode with LEVEL => 0 | DIFF | GROWTH_RATE => 1 | Y0Y_DIFF | Y0Y_GROWTH_RATE => pernb end.

(** k_wsvar.cpp:236-280 [KV_get], once the variable and the position are known to exist. *)
Definition kv_get (pernb : Z) (v : variable) (t : Z) (mode : vmode) : option val :=
  let n := lag_of mode pernb in
  match mode with
  | LEVEL => read v t
  | DIFF | Y0Y_DIFF =>
    if t <? n then Some (na A)
    else match read v t, read v (t - n) with
    | Some a, Some b => Some (if num A a && num A b then sub A a b else na A)
    | _, _ => None
    end
  | GROWTH_RATE | Y0Y_GROWTH_RATE =>
    if t <? n then Some (na A)
    else match read v t, read v (t - n) with
    | Some a, Some b =>
      Some (if num A a && num A b && negb (is_0 b)
            then mul A (sub A (dvd A a b) (ofZ A 1)) (ofZ A 100) else na A)
    | _, _ => None
    end
  end.

(** k_wsvar.cpp:335-365 [KV_set], same condition. *)
Definition kv_set (pernb : Z) (v : variable) (t : Z) (mode : vmode) (x : val) : option variable :=
  let n := lag_of mode pernb in
  match mode with
  | LEVEL => write v t x
  | DIFF | Y0Y_DIFF =>
    if t <? n then Some v
    else match read v (t - n) with
    | Some b => write v t (if num A x && num A b then M_Exec.add A b x else na A)
    | None => None
    end
  | GROWTH_RATE | Y0Y_GROWTH_RATE =>
    if t <? n then Some v
    else match read v (t - n) with
    | Some b =>
      write v t (if num A x && num A b
                 then mul A (M_Exec.add A (dvd A x (ofZ A 100)) (ofZ A 1)) b else na A)
    | None => None
    end
  end.

(** k_wsvar.cpp:389-421 [KV_init_values_1]. *)
Definition previous (v : variable) (t : Z) : option val := if t <? 1 then Some (na A) else read v (t - 1).
Definition init_tm1 (v : variable) (t : Z) : option variable :=
  match previous v t with
  | Some b => write v t (if num A b then b else ofZ A 1)
  | None => None
  end.
Definition init_extra (v : variable) (t : Z) : option variable :=
  match previous v t with
  | None => None
  | Some b =>
    if num A b then
      match (if t <? 2 then Some (na A) else read v (t - 2)) with
      | Some c => write v t (if num A c then sub A (mul A (ofZ A 2) b) c else b)
      | None => None
      end
    else write v t (ofZ A 1)
  end.
Definition kv_init (v : variable) (t : Z) (m : vinit) : option variable :=
  match read v t with
  | None => match m with ASIS => Some v | _ => None end
  | Some x =>
    match m with
    | TM1 => if num A x && negb (is_0 x) then Some v else init_tm1 v t
    | TM1_NA => if num A x then Some v else init_tm1 v t
    | TM1_A => init_tm1 v t
    | EXTRA => if num A x && negb (is_0 x) then Some v else init_extra v t
    | EXTRA_NA => if num A x then Some v else init_extra v t
    | EXTRA_A => init_extra v t
    | ASIS => Some v
    end
  end.
(** k_wsvar.cpp:467-468: the loop of [KV_extrapolate] on one variable. *)
Fixpoint kv_init_loop (n : nat) (v : variable) (t : Z) (m : vinit) : option variable :=
  match n with
  | O => Some v
  | S n' => match kv_init v t m with Some v' => kv_init_loop n' v' (t + 1) m | None => None end
  end.

(** [for(t = 0; t < n; t++) dst[i + t] = src[j + t];] *)
Fixpoint copy_range (n : nat) (dst src : variable) (i j : Z) : option variable :=
  match n with
  | O => Some dst
  | S n' =>
    match read src j with
    | None => None
    | Some x => match write dst i x with
                | None => None
                | Some dst' => copy_range n' dst' src (i + 1) (j + 1)
                end
    end
  end.

(** * Databases *)

Notation world := (world (list (F A))).
Record vworld := mkV { base : world; smps : list (option sample) }.
Inductive vout := VRet (b : bool) | VExc | VUndef.

(** variables.h: [get_sample], k_wsvar.cpp:1003-1009 [get_nb_periods]. *)
Definition smpl (w : vworld) (d : nat) : option sample := nth d (smps w) None.
Definition nb_of (s : option sample) : Z := match s with Some s => s_nb s | None => 0 end.
Definition nb_periods (w : vworld) (d : nat) : Z := nb_of (smpl w d).

Definition lift (r : world * out) : world * vout :=
  match r with (w, Ret b) => (w, VRet b) | (w, Exc) => (w, VExc) end.
Definition on_base (w : vworld) (r : world * vout) : vworld * vout := (mkV (fst r) (smps w), snd r).

(** k_wsvar.cpp:601-617 [set_obj_ptr] in a database with [nb] periods. *)
Definition setp (nb : Z) (w : world) (d : nat) (name : str) (p : nat) : world * vout :=
  match nth_error (heap w) p with
  | None => (w, VUndef)
  | Some v => if Z.of_nat (length v) =? nb then lift (set_obj_ptr VARIABLES w d (key_of VARIABLES name) p)
              else (w, VExc)
  end.
(** kdb.h:1194-1202 [set]. *)
Definition setv (nb : Z) (w : world) (d : nat) (name : str) (v : variable) : world * vout :=
  let '(w1, p) := alloc w v in setp nb w1 d name p.
(** k_wsvar.cpp:642-651 [add]; variables.h:88-99 [check_var_size]. *)
Definition addv (nb : Z) (w : world) (d : nat) (name : str) (v : variable) : world * vout :=
  if nb =? 0 then (w, VExc)
  else if Z.of_nat (length v) =? nb then lift (add VARIABLES w d name v) else (w, VExc).
(** k_wsvar.cpp:653-657 [update], kdb.h:1238-1249. *)
Definition updatev (nb : Z) (w : world) (d : nat) (name : str) (v : variable) : world * vout :=
  if Z.of_nat (length v) =? nb then
    if contains VARIABLES (get_db w d) (key_of VARIABLES name)
    then setv nb w d (key_of VARIABLES name) v else (w, VExc)
  else (w, VExc).

(** kdb.h:925-930 [copy_obj_from]. *)
Definition copyv (nb : Z) (w : world) (d e : nat) (sk dk : str) : world * vout :=
  match get_obj_ptr VARIABLES (get_db w e) sk with
  | Ok p => setp nb w d dk p
  | _ => (w, VExc)
  end.
Fixpoint veach (l : list str) (f : world -> str -> world * vout) (w : world) : world * vout :=
  match l with
  | [] => (w, VRet true)
  | x :: l' => match f w x with (w1, VRet _) => veach l' f w1 | r => r end
  end.

(** variables.h:155-165 [clear] after kdb.h:613-662.  Clearing a subset also takes the sample away
    from the subsets that its parent still knows ([get_children_db] of a subset gives those of its
    parent). *)
Definition reset (l : list nat) (s : option sample) (ss : list (option sample)) : list (option sample) :=
  fold_left (fun ss c => upd_list c (fun _ => s) ss) l ss.
Definition clearv (w : vworld) (d : nat) : vworld :=
  let b := get_db (base w) d in
  let w1 := clear (base w) d in
  mkV w1 (reset (d :: (if is_subset (kind b) then children w1 d else kids b)) None (smps w)).

(** kdb.h:1039-1068 [merge], the loop. *)
Definition merge_one (nb : Z) (d e : nat) (overwrite : bool) (w : world) (n : str) : world * vout :=
  if contains VARIABLES (get_db w e) n then
    if contains VARIABLES (get_db w d) n then
      if overwrite then
        match remove VARIABLES w d n with
        | (w1, Exc) => (w1, VExc)
        | (w1, _) => copyv nb w1 d e n n
        end
      else (w, VRet true)
    else copyv nb w d e n n
  else (w, VRet true).
Definition mergev (w : vworld) (d e : nat) (overwrite clear_source : bool) : vworld * vout :=
  match objs (get_db (base w) e) with
  | [] => (w, VRet true)
  | _ =>
    let r := on_base w (veach (keys (objs (get_db (base w) e))) (merge_one (nb_periods w d) d e overwrite) (base w)) in
    match r with
    | (w1, VRet _) => (if clear_source then clearv w1 e else w1, VRet true)
    | r => r
    end
  end.

(** kdb.h:932-965 [duplicate]. *)
Definition duplicatev (nb : Z) (w : world) (d e : nat) (old new : str) : world * vout :=
  if Nat.eqb d e && str_eqb old new then (w, VRet false)
  else if negb (contains VARIABLES (get_db w e) old) then (w, VRet false)
  else
    match (if contains VARIABLES (get_db w d) new then remove VARIABLES w d (key_of VARIABLES new) else (w, Ret true)) with
    | (w1, Exc) => (w1, VExc)
    | (w1, _) =>
      if negb (contains VARIABLES (get_db w1 e) old) then (w1, VRet false)
      else copyv nb w1 d e (key_of VARIABLES old) (key_of VARIABLES new)
    end.

(** kdb.h:461-482 [deep_copy], 664-712 [get_subset], variables.h:169-184 [initialize_subset]. *)
Definition subsetv (w : vworld) (d : nat) (sel : selection) (copy : bool) : vworld * vout :=
  match filter_names (get_db (base w) d) sel, top_of (base w) d with
  | Ok names, Some t =>
    if copy then
      let '(w1, s) := create (base w) DB_STANDALONE 0 in
      match veach names (fun w' n => if contains VARIABLES (get_db w' t) n
                                    then copyv (nb_periods w t) w' s t n n else (w', VRet false)) w1 with
      | (w2, VRet _) =>
        if forallb (contains VARIABLES (get_db (base w) t)) names
        then (mkV w2 (smps w ++ [smpl w t]), VRet true)
        else (mkV (mkW (heap w2) (dbs (base w))) (smps w), VExc)
      | (w2, r) => (mkV (mkW (heap w2) (dbs (base w))) (smps w), r)
      end
    else
      match get_subset VARIABLES (base w) d sel false with
      | (w1, Ret true) => (mkV w1 (smps w ++ [smpl w t]), VRet true)
      | (w1, _) => (mkV w1 (smps w), VExc)
      end
  | _, _ => (w, VExc)
  end.

(** sample.h:133-138 [operator==]. *)
Definition sample_eqb (s o : sample) : bool :=
  period_eqb (s_start s) (s_start o) && period_eqb (s_end s) (s_end o) && (s_nb s =? s_nb o).

(** k_wsvar.cpp:33-37, 971-982: common periods: how many, and where they start in the two samples. *)
Definition overlap (o s : sample) : res (Z * Z * Z) :=
  do i <- intersection o s;
  if 0 <? s_nb i then
    do a <- difference (s_start i) (s_start o);
    do b <- difference (s_start i) (s_start s);
    Ok (s_nb i, a, b)
  else Ok (0, 0, 0).

(** k_wsvar.cpp:984-1000: the loop of [set_sample] over the objects.  [resize] of a negative number
    of periods throws after the vector has been emptied. *)
Fixpoint resize_objs (l : list nat) (h : list variable) (nb n i j : Z) : list variable * vout :=
  match l with
  | [] => (h, VRet true)
  | p :: l' =>
    match nth_error h p with
    | None => match resize_objs l' h nb n i j with (h', VRet _) => (h', VRet false) | r => r end
    | Some v =>
      if nb <? 0 then (upd_list p (fun _ => []) h, VExc)
      else match copy_range (Z.to_nat n) (repeat (na A) (Z.to_nat nb)) v i j with
      | None => (h, VUndef)
      | Some v' => resize_objs l' (upd_list p (fun _ => v') h) nb n i j
      end
    end
  end.

(** k_wsvar.cpp:941-1001 [set_sample(const Sample&)]. *)
Definition set_sample (w : vworld) (d : nat) (s : sample) : vworld * vout :=
  if s_nb s =? 0 then (w, VRet false)
  else
    let same := match smpl w d with Some o => sample_eqb s o | None => false end in
    if same then (w, VRet true)
    else if is_subset (kind (get_db (base w) d)) then (w, VExc)
    else
      match (match smpl w d with None => Ok (0, 0, 0) | Some o => overlap o s end) with
      | Ok (n, a, b) =>
        let ss := reset (d :: children (base w) d) (Some s) (smps w) in
        let '(h, r) := resize_objs (map snd (objs (get_db (base w) d))) (heap (base w)) (s_nb s) n b a in
        (mkV (mkW h (dbs (base w))) ss, r)
      | _ => (w, VExc)
      end.
(** k_wsvar.cpp:917-932 [set_sample(const Period&, const Period&)]: exceptions are turned into false. *)
Definition set_sample_periods (w : vworld) (d : nat) (a b : period) : vworld * vout :=
  match make_sample a b with
  | Ok s => match set_sample w d s with (w1, VExc) => (w1, VRet false) | r => r end
  | _ => (w, VRet false)
  end.

(** The vector behind a name. *)
Definition vector (w : world) (d : nat) (name : str) : option (nat * variable) :=
  match get_obj_ptr VARIABLES (get_db w d) name with
  | Ok p => match nth_error (heap w) p with Some v => Some (p, v) | None => None end
  | _ => None
  end.
Definition poke (w : world) (p : nat) (v : variable) : world :=
  mkW (upd_list p (fun _ => v) (heap w)) (dbs w).

(** k_wsvar.cpp:659-669 [get_var] and 200-282 [KV_get]. *)
Definition get_var (w : vworld) (d : nat) (name : str) (t : Z) (mode : vmode) : res val :=
  if contains VARIABLES (get_db (base w) d) name then
    match smpl w d with
    | None => Ok (na A)
    | Some s =>
      if (t <? 0) || (s_nb s <=? t) then Ok (na A)
      else do pernb <- nb_per_year (per (s_start s));
           match vector (base w) d name with
           | None => Throw
           | Some (_, v) => match kv_get pernb v t mode with Some x => Ok x | None => UB end
           end
    end
  else Throw.
(** k_wsvar.cpp:698-708 [set_var] and 300-366 [KV_set]. *)
Definition set_var (w : vworld) (d : nat) (name : str) (t : Z) (mode : vmode) (x : val) : vworld * vout :=
  if contains VARIABLES (get_db (base w) d) name then
    match smpl w d with
    | None => (w, VRet true)
    | Some s =>
      if (t <? 0) || (s_nb s <=? t) then (w, VRet true)
      else match nb_per_year (per (s_start s)), vector (base w) d name with
           | Ok pernb, Some (p, v) =>
             match kv_set pernb v t mode x with
             | Some v' => (mkV (poke (base w) p v') (smps w), VRet true)
             | None => (w, VUndef)
             end
           | _, _ => (w, VExc)
           end
    end
  else (w, VExc).

(** k_wsvar.cpp:826-867 [update(name, values, t_first, t_last)]; [get(name)] (619-640) copies the
    [nb] values one by one. *)
Fixpoint firstZ (n : nat) (v : variable) : option variable :=
  match n, v with
  | O, _ => Some []
  | S _, [] => None
  | S n', x :: v' => match firstZ n' v' with Some l => Some (x :: l) | None => None end
  end.
Definition update_range (w : vworld) (d : nat) (name : str) (values : variable) (t1 t2 : Z) : vworld * vout :=
  let nb := nb_periods w d in
  if nb =? 0 then (w, VExc)
  else if (t1 <? 0) || (nb <=? t1) || (t2 <? 0) || (nb <=? t2) then (w, VExc)
  else if negb (Z.of_nat (length values) =? t2 - t1 + 1) then (w, VExc)
  else if contains VARIABLES (get_db (base w) d) name then
    match vector (base w) d name with
    | None => (w, VExc)
    | Some (_, v) =>
      match firstZ (Z.to_nat nb) v with
      | None => (w, VUndef)
      | Some v0 =>
        match copy_range (length values) v0 values t1 0 with
        | None => (w, VUndef)
        | Some v' => on_base w (updatev nb (base w) d name v')
        end
      end
    end
  else (w, VExc).

(** k_wsvar.cpp:1194-1217 [extrapolate] and 438-472 [KV_extrapolate], the sample being already made. *)
Definition extrapolate (w : vworld) (d : nat) (m : vinit) (s : sample) (sel : selection) : vworld * vout :=
  match objs (get_db (base w) d) with
  | [] => (w, VRet true)
  | _ =>
    match smpl w d with
    | None => (w, VUndef)
    | Some o =>
      match difference (s_start s) (s_start o), difference (s_end o) (s_end s) with
      | Ok bt, Ok at_ =>
        if (bt <? 0) || (at_ <? 0) then (w, VExc)
        else match filter_names (get_db (base w) d) sel with
        | Ok names =>
          on_base w (veach names (fun b n =>
            if s_nb o <=? 0 then (b, VExc)
            else match vector b d n with
            | None => (b, VExc)
            | Some (p, v) => match kv_init_loop (Z.to_nat (s_nb s)) v bt m with
                             | Some v' => (poke b p v', VRet true)
                             | None => (b, VUndef)
                             end
            end) (base w))
        | _ => (w, VExc)
        end
      | _, _ => (w, VExc)
      end
    end
  end.

(** k_wsvar.cpp:150-185 [KV_add]. *)
Definition kv_add (w : vworld) (d : nat) (name : str) : vworld * vout :=
  if contains VARIABLES (get_db (base w) d) name then
    if nb_periods w d <=? 0 then (w, VExc)
    else match vector (base w) d name with
    | None => (w, VExc)
    | Some (p, v) =>
      let n := Z.to_nat (nb_periods w d) in
      match copy_range n v (repeat (na A) n) 0 0 with
      | Some v' => (mkV (poke (base w) p v') (smps w), VRet true)
      | None => (w, VUndef)
      end
    end
  else match smpl w d with
  | None => (w, VUndef)
  | Some s => if s_nb s <? 0 then (w, VExc)
              else on_base w (setv (s_nb s) (base w) d name (repeat (na A) (Z.to_nat (s_nb s))))
  end.

(** k_wsvar.cpp:25-93 [KV_merge]; the loop runs over the names of [e] (the body never removes one). *)
Definition kv_merge_one (nb n a b : Z) (d e : nat) (replace : bool) (w : world) (name : str) : world * vout :=
  let found := contains VARIABLES (get_db w d) name in
  if found && negb replace then (w, VRet true)
  else
    let r := if found then (w, VRet true)
             else if nb <? 0 then (w, VExc)
             else setv nb w d name (repeat (na A) (Z.to_nat nb)) in
    match r with
    | (w1, VRet _) =>
      match vector w1 d name, vector w1 e name with
      | Some (p1, v1), Some (p2, v2) =>
        match copy_range (Z.to_nat n) v1 v2 a b with
        | Some v' => (poke w1 p1 v', VRet true)
        | None => (w1, VUndef)
        end
      | _, _ => (w1, VExc)
      end
    | r => r
    end.
Definition kv_merge (w : vworld) (d e : nat) (replace : bool) : vworld * vout :=
  let r := match smpl w d, smpl w e with
           | None, None => (w, VRet false)
           | None, Some s => set_sample w d s
           | _, _ => (w, VRet true)
           end in
  match smpl w d, smpl w e, r with
  | None, None, _ => (w, VRet false)
  | _, _, (w1, VRet _) =>
    match smpl w1 d, smpl w1 e with
    | Some s1, Some s2 =>
      match overlap s1 s2 with
      | Ok (n, a, b) =>
        on_base w1 (veach (keys (objs (get_db (base w1) e)))
                          (kv_merge_one (s_nb s1) n a b d e replace) (base w1))
      | _ => (w1, VExc)
      end
    | _, _ => (w1, VUndef)
    end
  | _, _, r => r
  end.

(** * Histories *)
Inductive vop :=
| VNew
| VSet (d : nat) (name : str) (v : variable)
| VAdd (d : nat) (name : str) (v : variable)
| VUpdate (d : nat) (name : str) (v : variable)
| VUpdateRange (d : nat) (name : str) (v : variable) (t1 t2 : Z)
| VSetAt (d : nat) (name : str) (t : Z) (mode : vmode) (x : val)
| VRemove (d : nat) (name : str)
| VRename (d : nat) (old new : str) (overwrite : bool)
| VMerge (d e : nat) (overwrite clear_source : bool)
| VDuplicate (d e : nat) (old new : str)
| VSubset (d : nat) (sel : selection) (copy : bool)
| VClear (d : nat)
| VDrop (d : nat)
| VSample (d : nat) (s : sample)
| VPeriods (d : nat) (a b : period)
| VExtrapolate (d : nat) (m : vinit) (s : sample) (sel : selection)
| KvAdd (d : nat) (name : str)
| KvMerge (d e : nat) (replace : bool).

(** [drop] of M_Kdb.v; a database that is really destroyed is cleared first. *)
Definition dropv (w : vworld) (d : nat) : vworld :=
  let b := get_db (base w) d in
  if is_subset (kind b) && alive (get_db (base w) (up b)) && existsb (Nat.eqb d) (kids (get_db (base w) (up b))) then w
  else let w1 := clearv w d in mkV (drop (base w) d) (smps w1).

Definition vstep (w : vworld) (o : vop) : vworld * vout :=
  let L d := live (base w) d in
  match o with
  | VNew => (mkV (fst (create (base w) DB_STANDALONE 0)) (smps w ++ [None]), VRet true)
  | VSet d n v => if L d then on_base w (setv (nb_periods w d) (base w) d n v) else (w, VExc)
  | VAdd d n v => if L d then on_base w (addv (nb_periods w d) (base w) d n v) else (w, VExc)
  | VUpdate d n v => if L d then on_base w (updatev (nb_periods w d) (base w) d n v) else (w, VExc)
  | VUpdateRange d n v t1 t2 => if L d then update_range w d n v t1 t2 else (w, VExc)
  | VSetAt d n t m x => if L d then set_var w d n t m x else (w, VExc)
  | VRemove d n => if L d then on_base w (lift (remove VARIABLES (base w) d n)) else (w, VExc)
  | VRename d a b ow => if L d then on_base w (lift (rename VARIABLES (base w) d a b ow)) else (w, VExc)
  | VMerge d e ow c => if L d && L e then mergev w d e ow c else (w, VExc)
  | VDuplicate d e a b => if L d && L e then on_base w (duplicatev (nb_periods w d) (base w) d e a b) else (w, VExc)
  | VSubset d sel c => if L d then subsetv w d sel c else (w, VExc)
  | VClear d => if L d then (clearv w d, VRet true) else (w, VExc)
  | VDrop d => if L d then (dropv w d, VRet true) else (w, VExc)
  | VSample d s => if L d then set_sample w d s else (w, VExc)
  | VPeriods d a b => if L d then set_sample_periods w d a b else (w, VExc)
  | VExtrapolate d m s sel => if L d then extrapolate w d m s sel else (w, VExc)
  | KvAdd d n => if L d then kv_add w d n else (w, VExc)
  | KvMerge d e r => if L d && L e then kv_merge w d e r else (w, VExc)
  end.
Definition vrun (ops : list vop) (w : vworld) : vworld := fold_left (fun w o => fst (vstep w o)) ops w.
Definition no_vars : vworld := mkV empty_world [].
End Vars.
