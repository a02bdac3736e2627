(** Order of the equations of a model: api/simulation/k_sim_order.cpp, and the tables that link
    equations and variables (k_sim_main.cpp:567-600, k_sim_scc.cpp:61-97). *)
From Coq Require Import ZArith Ascii String List Bool.
From Verif Require Import M_Base M_Names M_Lex M_Bytes.
Import ListNotations.
Open Scope Z_scope.

(** C arrays: an access out of bounds is UB. *)
Definition getz {A} (l : list A) (i : Z) : res A :=
  if i <? 0 then UB else match nth_error l (Z.to_nat i) with Some x => Ok x | None => UB end.
Fixpoint put_at {A} (l : list A) (n : nat) (v : A) : list A :=
  match l, n with
  | [], _ => []
  | _ :: l', O => v :: l'
  | x :: l', S n' => x :: put_at l' n' v
  end.
Definition setz {A} (l : list A) (i : Z) (v : A) : res (list A) :=
  if (i <? 0) || (Z.of_nat (length l) <=? i) then UB else Ok (put_at l (Z.to_nat i) v).
Definition len {A} (l : list A) : Z := Z.of_nat (length l).

(** The model being simulated (simulation.h:72-92). [objs]: for each equation of KSIM_DBE in the order of the
    map, the pairs CLEC::objs (name, position of the linked object). [posxk], [posrev]: KSIM_POSXK and
    KSIM_POSXK_REV. KSIM_MAXDEPTH is the number of equations. *)
Record model := mkM { objs : list (list (str * Z)); posxk : list Z; posrev : list Z }.
Definition nb_eqs (m : model) : Z := len (objs m).

(** * Linking *)

(** k_sim_main.cpp:578-600, the loop of [simulate] on the equations: None when a name is not found (return
    code -1). [vars]: names of KSIM_DBV; an equation: its name and the names of its CLEC. Positions of the
    coefficients are those of KSIM_DBS, not used by the ordering; [scl]: names of KSIM_DBS.
    l_link.cpp:27-46 [link_names]. *)
Fixpoint link_objs (vars scl names : list str) : option (list (str * Z)) :=
  match names with
  | [] => Some []
  | n :: l =>
    let pos := pos_of (if is_coefficient n then scl else vars) n in
    if pos <? 0 then None
    else match link_objs vars scl l with Some r => Some ((n, pos) :: r) | None => None end
  end.
Fixpoint link_loop (vars scl : list str) (eqs : list (str * list str)) (i : Z) (m : model) : res (option model) :=
  match eqs with
  | [] => Ok (Some m)
  | (name, names) :: l =>
    let posvar := pos_of vars name in
    if posvar <? 0 then Ok None
    else
      do rv <- setz (posrev m) posvar i;
      match link_objs vars scl names with
      | None => Ok None
      | Some o => link_loop vars scl l (i + 1) (mkM (objs m ++ [o]) (posxk m ++ [posvar]) rv)
      end
  end.
Definition link_model (vars scl : list str) (eqs : list (str * list str)) : res (option model) :=
  link_loop vars scl eqs 0 (mkM [] [] (map (fun _ => -1) vars)).

(** k_sim_scc.cpp:61-97 [calculate_SCC] and l_link.cpp:223-235 [L_link_endos]. *)
Definition link_endos (eqs : list (str * list str)) : model :=
  let dbe := map fst eqs in
  let ids := map Z.of_nat (seq 0 (length eqs)) in
  mkM (map (fun e => map (fun n => (n, if is_coefficient n then 0 else pos_of dbe n)) (snd e)) eqs) ids ids.

(** k_sim_order.cpp:367-377 [get_eq_position]. *)
Definition get_eq_position (m : model) (posendo : Z) : res Z :=
  if posendo <? 0 then Ok (-1)
  else
    do same <- (if posendo <? nb_eqs m then do v <- getz (posxk m) posendo; Ok (v =? posendo) else Ok false);
    if same : bool then Ok posendo else getz (posrev m) posendo.

(** * Predecessors and successors *)

(** k_sim_order.cpp:40-52 [add_post]. *)
Definition add_post (successors : list (list Z)) (i pos : Z) : res (list (list Z)) :=
  do s <- getz successors pos;
  let s := match s with [] => [0] | _ => s end in
  match s with
  | n :: l => setz successors pos ((n + 1 :: l) ++ [i])
  | [] => UB
  end.

(** k_sim_order.cpp:222-244, the loop on the objects of equation [i]: the values stored from index 1 of
    [eq_predecessors], and the successors. *)
Fixpoint scan_objs (m : model) (i : Z) (o : list (str * Z)) (succ : list (list Z)) : res (list Z * list (list Z)) :=
  match o with
  | [] => Ok ([], succ)
  | (name, posj) :: o' =>
    if is_coefficient name then scan_objs m i o' succ
    else
      do xk <- getz (posxk m) i;
      do eq_pos <- (if xk =? posj then Ok (-1)
                    else do p <- get_eq_position m posj; Ok (if (0 <=? p) && (p =? i) then -1 else p));
      do succ <- (if 0 <=? eq_pos then add_post succ i eq_pos else Ok succ);
      do r <- scan_objs m i o' succ;
      Ok (eq_pos :: fst r, snd r)
  end.

(** k_sim_order.cpp:203-249 [pre_order]: [eq_predecessors] has the size of [objs] plus one and starts with that
    size; the entries not filled because the object is a coefficient stay 0. *)
Fixpoint pre_order (m : model) (i : Z) (os : list (list (str * Z))) (pred succ : list (list Z))
  : res (list (list Z) * list (list Z)) :=
  match os with
  | [] => Ok (pred, succ)
  | o :: os' =>
    do r <- scan_objs m i o succ;
    let row := len o :: fst r ++ repeat 0 (length o - length (fst r)) in
    pre_order m (i + 1) os' (pred ++ [row]) (snd r)
  end.

(** * Prolog and epilog *)

(** k_sim_order.cpp:107-118, the loop on the predecessors: true when it reaches the end. *)
Fixpoint all_ordered (ordered : list bool) (ps : list Z) : res bool :=
  match ps with
  | [] => Ok true
  | p :: ps' =>
    if p <? 0 then all_ordered ordered ps'
    else do o <- getz ordered p; if o : bool then all_ordered ordered ps' else Ok false
  end.
Definition ready (ordered : list bool) (row : list Z) : res bool :=
  match row with
  | [] => Ok true
  | n :: l => if len l <? n then UB else all_ordered ordered (firstn (Z.to_nat n) l)
  end.

(** KSIM_ORDERED, KSIM_ORDER and the number of equations placed in the block. *)
Record placing := mkP { ordered : list bool; sorder : list Z; nb : Z; added : bool }.

(** k_sim_order.cpp:97-129, one loop on the equations from [i] on. [j] and [nb_predecessors] keep values of
    previous equations when a row is empty, but are not used then. *)
Fixpoint one_pass (from i : Z) (rows : list (list Z)) (p : placing) : res placing :=
  match rows with
  | [] => Ok p
  | row :: rows' =>
    do o <- getz (ordered p) i;
    if o : bool then one_pass from (i + 1) rows' p
    else
      do r <- ready (ordered p) row;
      if r : bool then
        do od <- setz (ordered p) i true;
        do so <- setz (sorder p) (from + nb p) i;
        one_pass from (i + 1) rows' (mkP od so (nb p + 1) true)
      else one_pass from (i + 1) rows' p
  end.

(** k_sim_order.cpp:84-133 [build_pre_post_list]. [fuel] bounds the number of loops (UB without fuel; proved
    not to happen). *)
Fixpoint passes_loop (fuel : nat) (from : Z) (rows : list (list Z)) (p : placing) : res placing :=
  match fuel with
  | O => UB
  | S f =>
    do p' <- one_pass from 0 rows (mkP (ordered p) (sorder p) (nb p) false);
    if added p' then passes_loop f from rows p' else Ok p'
  end.
Definition build_pre_post_list (rows : list (list Z)) (from : Z) (od : list bool) (so : list Z) : res placing :=
  passes_loop (S (length rows)) from rows (mkP od so 0 false).

(** k_sim_order.cpp:151-162 [build_inter_list]. *)
Fixpoint inter_loop (at_ i : Z) (od : list bool) (so : list Z) (n : Z) : res (list Z * Z) :=
  match od with
  | [] => Ok (so, n)
  | true :: od' => inter_loop at_ (i + 1) od' so n
  | false :: od' => do so <- setz so (at_ + n) i; inter_loop at_ (i + 1) od' so (n + 1)
  end.

(** k_sim_order.cpp:320-325, the loop that reverses the epilog. *)
Fixpoint reverse_loop (pre post i : Z) (n : nat) (so : list Z) : res (list Z) :=
  match n with
  | O => Ok so
  | S n' =>
    do k <- getz so (pre + i);
    do l <- getz so (pre + (post - 1) - i);
    do so <- setz so (pre + i) l;
    do so <- setz so (pre + (post - 1) - i) k;
    reverse_loop pre post (i + 1) n' so
  end.

(** k_sim_order.cpp:337-341: the copies that put the interdependent block before the epilog. *)
Definition rotate (pre inter post : Z) (so : list Z) : list Z :=
  let tmp2 := skipn (Z.to_nat pre) so in
  firstn (Z.to_nat pre) so ++ firstn (Z.to_nat inter) (skipn (Z.to_nat post) tmp2) ++ firstn (Z.to_nat post) tmp2.

(** * Triangulation *)

(** k_sim_order.cpp:387-399 [compute_tri_begin]. *)
Fixpoint tri_begin (so : list Z) (pre : Z) (i : Z) (n : nat) (perm : list Z) : res (list Z) :=
  match n with
  | O => Ok perm
  | S n' => do e <- getz so (pre + i); do perm <- setz perm e i; tri_begin so pre (i + 1) n' perm
  end.

(** k_sim_order.cpp:409-417 [compute_tri_end]. *)
Fixpoint tri_end (pre i : Z) (perm : list Z) (so : list Z) : res (list Z) :=
  match perm with
  | [] => Ok so
  | p :: perm' => do so <- (if 0 <=? p then setz so (pre + p) i else Ok so); tri_end pre (i + 1) perm' so
  end.

(** k_sim_order.cpp:441-452: the largest position of an explanatory equation. *)
Fixpoint latest (perm : list Z) (vars : list Z) (m : Z) : res Z :=
  match vars with
  | [] => Ok m
  | v :: vars' =>
    if v <? 0 then latest perm vars' m
    else do posj <- getz perm v; latest perm vars' (if m <? posj then posj else m)
  end.

(** k_sim_order.cpp:435-465 [compute_tri_perm1]. *)
Definition tri_perm1 (perm : list Z) (i : Z) (row : list Z) : res (list Z) :=
  match row with
  | [] => UB
  | n :: l =>
    if len l <? n then UB
    else
      do m <- latest perm (firstn (Z.to_nat n) l) (-1);
      do pi <- getz perm i;
      if m <? pi then Ok perm
      else setz (map (fun p => if (pi <? p) && (p <=? m) then p - 1 else p) perm) i m
  end.

(** k_sim_order.cpp:480-499 [compute_tri]. *)
Fixpoint tri_pass (so : list Z) (pre i : Z) (n : nat) (rows : list (list Z)) (perm : list Z) : res (list Z) :=
  match n with
  | O => Ok perm
  | S n' =>
    do var <- getz so (pre + i);
    do row <- getz rows var;
    do perm <- tri_perm1 perm var row;
    tri_pass so pre (i + 1) n' rows perm
  end.
Fixpoint tri_passes (passes : nat) (so : list Z) (pre inter : Z) (rows : list (list Z)) (perm : list Z) : res (list Z) :=
  match passes with
  | O => Ok perm
  | S n => do perm <- tri_pass so pre 0 (Z.to_nat inter) rows perm; tri_passes n so pre inter rows perm
  end.
Definition compute_tri (rows : list (list Z)) (so : list Z) (pre inter : Z) (passes : nat) : res (list Z) :=
  do perm <- tri_begin so pre 0 (Z.to_nat inter) (map (fun _ => -1) rows);
  do perm <- tri_passes passes so pre inter rows perm;
  tri_end pre 0 perm so.

(** * The order *)

(** simulation.h:20-25. *)
Inductive sort_option := SORT_CONNEX | SORT_BOTH | SORT_NONE.

(** KSIM_ORDER, KSIM_PRE, KSIM_INTER, KSIM_POST. *)
Record ordering := mkO { o_order : list Z; o_pre : Z; o_inter : Z; o_post : Z }.

(** k_sim_order.cpp:301-303: reading [eqs[i]] after the end of the vector is UB. *)
Fixpoint given_order (dbe eqs : list str) (n : nat) : res (list Z) :=
  match n, eqs with
  | O, _ => Ok []
  | S n', e :: eqs' => do l <- given_order dbe eqs' n'; Ok (pos_of dbe e :: l)
  | S _, [] => UB
  end.

(** k_sim_order.cpp:282-351 [order]. [dbe]: names of the equations; [eqs]: the order asked for by the user, or
    empty; KSIM_PASSES as a natural number (a negative value means no pass). The arrays are zero when
    allocated (s_allc.c:208). *)
Definition order (m : model) (dbe eqs : list str) (sort : sort_option) (passes : nat) : res ordering :=
  let n := nb_eqs m in
  match sort with
  | SORT_NONE =>
    match eqs with
    | [] => Ok (mkO (map Z.of_nat (seq 0 (length (objs m)))) 0 n 0)
    | _ => do l <- given_order dbe eqs (length (objs m)); Ok (mkO l 0 n 0)
    end
  | _ =>
    do ps <- pre_order m 0 (objs m) [] (map (fun _ => []) (objs m));
    let '(predecessors, successors) := (ps : list (list Z) * list (list Z)) in
    do p <- build_pre_post_list predecessors 0 (map (fun _ => false) (objs m)) (map (fun _ => 0) (objs m));
    let pre := nb p in
    do q <- build_pre_post_list successors pre (ordered p) (sorder p);
    let post := nb q in
    do so <- reverse_loop pre post 0 (Z.to_nat (post / 2)) (sorder q);
    do r <- inter_loop (pre + post) 0 (ordered q) so 0;
    let '(so, inter) := (r : list Z * Z) in
    let so := rotate pre inter post so in
    do so <- (match sort with SORT_BOTH => compute_tri predecessors so pre inter passes | _ => Ok so end);
    Ok (mkO so pre inter post)
  end.
