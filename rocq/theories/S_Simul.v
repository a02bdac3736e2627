(** Independent vocabulary for the simulation of a model. *)
From Coq Require Import ZArith List Bool Permutation QArith Qcanon.
From Verif Require Import M_Base M_Names M_Exec M_Exact M_Order M_Exo2endo M_Simul S_Order.
Import ListNotations.
Open Scope Z_scope.

(** The value of an equation depends only on the variables that occur in it. *)
Definition reads_only {A} (m : model) (f : Z -> values A -> Z -> F A) : Prop :=
  forall e s s' t, (forall v p, occurs m (Z.to_nat e) v -> s v p = s' v p) -> f e s t = f e s' t.

Section Pass.
Variable A : arith.
(** [solve e s]: the solution of equation [e] for its endogenous variable [endo e], and the variables afterwards. *)
Variable solve : Z -> values A -> values A * F A.
Variable endo : Z -> Z.
Variables (t : Z) (r : F A).

(** A pass over the equations where each result, relaxed by [r], is used by the next equations. *)
Fixpoint pass_seq (es : list Z) (s : values A) : values A :=
  match es with
  | [] => s
  | e :: es' =>
    let v := s (endo e) t in let x := snd (solve e s) in
    pass_seq es' (set s (endo e) t (add A (mul A r (sub A x v)) v))
  end.

(** A pass where all the equations are solved first. *)
Fixpoint solutions (es : list Z) (s : values A) : list (F A) :=
  match es with
  | [] => []
  | e :: es' => let '(s', x) := solve e s in x :: solutions es' s'
  end.
Fixpoint pass_all (es : list Z) (xs : list (F A)) (s : values A) : values A :=
  match es, xs with
  | e :: es', x :: xs' =>
    let v := s (endo e) t in pass_all es' xs' (set s (endo e) t (add A (mul A r x) (mul A (sub A (ofZ A 1) r) v)))
  | _, _ => s
  end.
End Pass.

(** In exact arithmetic: the smaller of the absolute and the relative change from [v] to [v'] is at most [eps]. *)
Definition q_abs (x : Qc) : Qc := if q_lt x (q_ofZ 0) then Qcopp x else x.
Definition near (eps v v' : Qc) : Prop :=
  (q_abs (v' - v) <= eps)%Qc \/ (v <> q_ofZ 0 /\ (q_abs (v' - v) <= eps * q_abs v)%Qc).
(** One more pass over the equations [es]: the relaxation is the absolute value of the parameter of the simulation;
    a negative parameter asks for the second kind of pass. *)
Definition one_more (Q : eqns exactly) (P : params exactly) (endo : Z -> Z) (t : Z) (es : list Z) (s : values exactly) : values exactly :=
  let solve := fun e s => calculate exactly Q P e t (endo e) s in
  let r := q_abs (relax P) in
  if q_lt (relax P) (q_ofZ 0) then pass_all exactly endo t r es (solutions exactly solve es s) s
  else pass_seq exactly solve endo t r es s.


(** The tables of the model [eqs] linked to the variables [vars], after the exchanges [l]. *)
Definition built (vars scl : list str) (eqs : list (str * list str)) (l : list (str * str)) (m : model) : Prop :=
  NoDup vars /\ NoDup (map fst eqs) /\
  exists m0, link_model vars scl eqs = Ok (Some m0) /\ exchanges vars (map fst eqs) m0 l = Ok (Some m).
(** The order [o] of its equations; without sorting, that of the user names each equation once. *)
Definition sorted (eqs : list (str * list str)) (m : model) (given : list str) (sort : sort_option) (o : ordering) : Prop :=
  (sort = SORT_NONE -> given = [] \/ Permutation given (map fst eqs)) /\
  exists passes, order m (map fst eqs) given sort passes = Ok o.
(** Each equation contains the variable of its name. *)
Definition own_inside (eqs : list (str * list str)) : Prop :=
  forall n ns, In (n, ns) eqs -> In n ns /\ is_coefficient n = false.
(** The equations of the three blocks. *)
Definition in_block (o : ordering) (from n : Z) (e : nat) : Prop :=
  exists r, at_rank o r e /\ from <= Z.of_nat r < from + n.
Definition interdependent (o : ordering) (e : nat) : Prop := in_block o (o_pre o) (o_inter o) e.
(** The equations of ranks [from] to [from + n - 1] of the order. *)
Definition block (o : ordering) (from n : Z) : list Z := firstn (Z.to_nat n) (skipn (Z.to_nat from) (o_order o)).
(** The same parameters, the endogenous variables being kept as initial values. *)
Definition keeping_values {A} (P : params A) : params A :=
  mkP A (eps P) (relax P) (maxit P) M_Vars.ASIS (newton_eps P) (newton_maxit P) (tiny P).
(** Explicit equations do not read their own variable in the current period. *)
Definition explicit {A} (own : Z -> Z) (f : Z -> values A -> Z -> F A) (e : Z) : Prop :=
  forall s t x, f e (set s (own e) t x) t = f e s t.
(** What an equation solved for the variable [v] has to give: zero when the variable was found numerically in its own
    equation, else the value of the variable of the equation. *)
Definition target {A} (Q : eqns A) (e t v : Z) (s : values A) : F A :=
  if (v =? own Q e) || dup Q e then ofZ A 0 else s (own Q e) t.
(** In exact arithmetic: the change from [v] to [x], times [r], is more than [eps], absolutely and, unless [v] is
    negligible, relatively. *)
Definition far (eps r v x : Qc) : Prop :=
  (eps < r * q_abs (x - v))%Qc /\ ((q_abs v < q_tiny)%Qc \/ (eps * q_abs v < r * q_abs (x - v))%Qc).
(** [s'] holds, at period [p], the results of a simulation of this period that stopped for the reason [why]. *)
Definition result_of A (Q : eqns A) (P : params A) (m : model) (o : ordering) (keys : Z -> nat -> bool) (s' : values A) (p : Z) (why : stop) : Prop :=
  exists s xk norm, let r := simulate_period A Q P m o (keys p) p s xk norm in
    r_stop r = why /\ forall v, s' v p = r_s r v p.
