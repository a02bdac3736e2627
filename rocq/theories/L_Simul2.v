(** Lemmas about the simulation: determinism of the passes and the state reached at convergence. *)
From Coq Require Import ZArith List Bool Lia Permutation.
From Verif Require Import M_Base M_Names M_Bytes M_Exec M_Order M_Exo2endo M_Vars M_Simul S_Order S_Simul L_Simul.
Import ListNotations.
Open Scope Z_scope.

Section Ext.
Variable A : arith.
Variable Q : eqns A.
Variable P : params A.
Variable R : Z -> Prop.
Definition agree (s s' : values A) : Prop := forall v p, R v -> s v p = s' v p.
Lemma set_agree s s' v t x : agree s s' -> agree (set s v t x) (set s' v t x).
Proof. intros H w p Hw. unfold set. destruct (_ && _); auto. Qed.

Section One.
Variables e t v : Z.
Hypothesis Hev : forall s s', agree s s' -> ev Q e s t = ev Q e s' t.
Hypothesis Hv : R v.
Hypothesis Ho : R (own Q e).

Lemma newton_loop_ext n : forall oldx sh tol x s s', agree s s' ->
  agree (fst (newton_loop A Q e t v n oldx sh tol x s)) (fst (newton_loop A Q e t v n oldx sh tol x s')) /\
  snd (newton_loop A Q e t v n oldx sh tol x s) = snd (newton_loop A Q e t v n oldx sh tol x s').
Proof.
  induction n as [|n IH]; intros oldx sh tol x s s' H; cbn [newton_loop].
  - split; [now apply set_agree|reflexivity].
  - assert (K : forall y, agree (set s v t y) (set s' v t y)) by (intros; now apply set_agree).
    assert (K2 : forall y z, agree (set (set s v t y) v t z) (set (set s' v t y) v t z)) by (intros; apply set_agree, K).
    assert (K3 : forall y z w, agree (set (set (set s v t y) v t z) v t w) (set (set (set s' v t y) v t z) v t w)) by (intros; apply set_agree, K2).
    rewrite (Hev _ _ (K x)). destruct (negb _); [split; [apply K2|reflexivity]|].
    destruct (lt A _ tol); [split; [apply K|reflexivity]|].
    match goal with |- context [set (set s v t x) v t ?h] => rewrite (Hev _ _ (K2 x h)) end.
    destruct (negb _); [split; [apply K3|reflexivity]|].
    destruct (lt A (abs A _) _); [split; [apply K3|reflexivity]|].
    match goal with |- context [set (set (set s v t x) v t ?h) v t ?k] => rewrite (Hev _ _ (K3 x h k)) end.
    apply IH. apply K3.
Qed.
Lemma newton_sub_ext algo s s' : agree s s' ->
  agree (fst (newton_sub A Q P e t v algo s)) (fst (newton_sub A Q P e t v algo s')) /\
  snd (newton_sub A Q P e t v algo s) = snd (newton_sub A Q P e t v algo s').
Proof.
  intros H. unfold newton_sub. cbv zeta. rewrite (H v t Hv).
  assert (E : shift_of A Q e t v s = shift_of A Q e t v s') by (unfold shift_of; destruct direct; [reflexivity|now apply H]).
  rewrite E. repeat match goal with |- context [if ?b then (s, _) else _] => destruct b; [now split|] end.
  now apply newton_loop_ext.
Qed.
Lemma newton_ext s s' : agree s s' ->
  agree (fst (newton A Q P e t v s)) (fst (newton A Q P e t v s')) /\
  snd (newton A Q P e t v s) = snd (newton A Q P e t v s').
Proof.
  intros H. unfold newton. cbv zeta. destruct (newton_sub_ext false s s' H) as [H1 H2]. rewrite H2.
  destruct num; [now split|]. now apply newton_sub_ext.
Qed.
Lemma bracket_loop_ext n f g : (forall x, f x = g x) -> forall x1 x2 f1 f2, bracket_loop A n f x1 x2 f1 f2 = bracket_loop A n g x1 x2 f1 f2.
Proof.
  intros H. induction n as [|n IH]; intros x1 x2 f1 f2; [reflexivity|]. cbn [bracket_loop]. cbv zeta. now rewrite !H, !IH.
Qed.
Lemma secant_loop_ext n f g : (forall x, f x = g x) -> forall xl xh fl fh dx, secant_loop A n f xl xh fl fh dx = secant_loop A n g xl xh fl fh dx.
Proof.
  intros H. induction n as [|n IH]; intros xl xh fl fh dx; [reflexivity|]. cbn [secant_loop]. cbv zeta. now rewrite !H, !IH.
Qed.
Lemma secant_ext s s' : agree s s' -> secant A Q e t v s = secant A Q e t v s'.
Proof.
  intros H. unfold secant. cbv zeta. rewrite (H v t Hv).
  assert (E : shift_of A Q e t v s = shift_of A Q e t v s') by (unfold shift_of; destruct direct; [reflexivity|now apply H]).
  rewrite E. destruct (_ && _); [reflexivity|].
  assert (G : forall x, L_fx A Q e t v s (shift_of A Q e t v s') x = L_fx A Q e t v s' (shift_of A Q e t v s') x).
  { intros x. unfold L_fx. f_equal. apply Hev. now apply set_agree. }
  rewrite G. destruct (lt A _ _); [reflexivity|]. unfold bracket.
  destruct (eq A _ _); [reflexivity|]. rewrite !G. rewrite (bracket_loop_ext 20 _ _ G).
  destruct bracket_loop as [[a b]|]; [|reflexivity]. rewrite !G.
  destruct (lt A _ _); apply secant_loop_ext, G.
Qed.
Lemma calculate_ext s s' : agree s s' ->
  agree (fst (calculate A Q P e t v s)) (fst (calculate A Q P e t v s')) /\
  snd (calculate A Q P e t v s) = snd (calculate A Q P e t v s').
Proof.
  intros H. unfold calculate, zero. cbv zeta. destruct (_ || _); [|split; [exact H|now apply Hev]].
  destruct (newton_ext s s' H) as [H1 H2]. rewrite H2. destruct num; [now split|]. split; [exact H1|]. cbn [snd]. now apply secant_ext.
Qed.
End One.

(** * Passes *)

Variable endo : Z -> Z.
Variable t : Z.
Definition readable (e : Z) : Prop :=
  (forall s s', agree s s' -> ev Q e s t = ev Q e s' t) /\ R (endo e) /\ R (own Q e).

Lemma interdep_1_ext r es : Forall readable es -> forall old s s' norm, agree s s' ->
  let i := interdep_1 A Q P endo t r es old s norm in let i' := interdep_1 A Q P endo t r es old s' norm in
  i_xk i = i_xk i' /\ i_norm i = i_norm i' /\ i_ok i = i_ok i' /\ agree (i_s i) (i_s i').
Proof.
  induction 1 as [|e es (H1 & H2 & H3) _ IH]; intros old s s' norm H; cbn [interdep_1]; [now cbn|].
  destruct (calculate_ext e t (endo e) H1 H2 H3 s s' H) as [C1 C2]. rewrite <- (H (endo e) t H2).
  destruct (calculate A Q P e t (endo e) s) as [s1 x], (calculate A Q P e t (endo e) s') as [s1' x'].
  cbn [fst snd] in C1, C2. subst x'. destruct (negb _); [cbn; auto|].
  destruct (num A (s (endo e) t)).
  - destruct (IH (tl old) _ _ (if lt A norm (change A P r (s (endo e) t) x) then change A P r (s (endo e) t) x else norm)
      (set_agree s1 s1' (endo e) t (add A (mul A r (sub A x (s (endo e) t))) (s (endo e) t)) C1)) as (J1 & J2 & J3 & J4).
    cbn. repeat split; auto. now rewrite J1.
  - destruct (IH (tl old) _ _ (ofZ A 10) (set_agree s1 s1' (endo e) t x C1)) as (J1 & J2 & J3 & J4).
    cbn. repeat split; auto. now rewrite J1.
Qed.
Lemma stage_1_ext es : Forall readable es -> forall old s s', agree s s' ->
  agree (fst (fst (fst (stage_1 A Q P endo t es old s)))) (fst (fst (fst (stage_1 A Q P endo t es old s')))) /\
  snd (fst (fst (stage_1 A Q P endo t es old s))) = snd (fst (fst (stage_1 A Q P endo t es old s'))) /\
  snd (fst (stage_1 A Q P endo t es old s)) = snd (fst (stage_1 A Q P endo t es old s')) /\
  snd (stage_1 A Q P endo t es old s) = snd (stage_1 A Q P endo t es old s').
Proof.
  induction 1 as [|e es (H1 & H2 & H3) _ IH]; intros old s s' H; cbn [stage_1]; [now cbn|].
  destruct (calculate_ext e t (endo e) H1 H2 H3 s s' H) as [C1 C2]. rewrite <- (H (endo e) t H2).
  destruct (calculate A Q P e t (endo e) s) as [s1 x], (calculate A Q P e t (endo e) s') as [s1' x'].
  cbn [fst snd] in C1, C2. subst x'. destruct (negb _); [cbn; auto|].
  destruct (IH (tl old) _ _ C1) as (J1 & J2 & J3 & J4).
  destruct (stage_1 A Q P endo t es (tl old) s1) as [[[? ?] ?] ?], (stage_1 A Q P endo t es (tl old) s1') as [[[? ?] ?] ?].
  cbn [fst snd] in *. subst. auto.
Qed.
Lemma stage_2_ext r es : Forall readable es -> forall xks xs s s' norm, agree s s' ->
  agree (fst (stage_2 A P endo t r es xks xs s norm)) (fst (stage_2 A P endo t r es xks xs s' norm)) /\
  snd (stage_2 A P endo t r es xks xs s norm) = snd (stage_2 A P endo t r es xks xs s' norm).
Proof.
  induction 1 as [|e es _ _ IH]; intros [|xk xks] [|x xs] s s' norm H; cbn [stage_2]; try (now split).
  destruct (num A xk); apply IH; now apply set_agree.
Qed.
Lemma interdep_ext inter : Forall readable inter -> forall old s s' norm, agree s s' ->
  let i := interdep A Q P endo inter t old s norm in let i' := interdep A Q P endo inter t old s' norm in
  i_xk i = i_xk i' /\ i_norm i = i_norm i' /\ i_ok i = i_ok i' /\ agree (i_s i) (i_s i').
Proof.
  intros F old s s' norm H. unfold interdep. destruct le; [now apply interdep_1_ext|]. unfold interdep_2.
  destruct (stage_1_ext inter F old s s' H) as (J1 & J2 & J3 & J4).
  destruct (stage_1 A Q P endo t inter old s) as [[[s2 xks] xs] ok], (stage_1 A Q P endo t inter old s') as [[[s2' xks'] xs'] ok'].
  cbn [fst snd] in *. subst xks' xs' ok'. destruct ok; [|cbn; auto].
  destruct (stage_2_ext (abs A (relax P)) inter F xks xs s2 s2' (zer A) J1) as [K1 K2].
  destruct (stage_2 A P endo t (abs A (relax P)) inter xks xs s2 (zer A)), (stage_2 A P endo t (abs A (relax P)) inter xks xs s2' (zer A)).
  cbn [fst snd] in *. subst. cbn. auto.
Qed.

(** * KSIM_XK *)

Lemma only_at es s s' v : only A (endos endo t es) s s' -> ~ In v (map endo es) -> s' v t = s v t.
Proof. intros O N. destruct (O v t) as [[_ (e & He & ->)]|E]; [|exact E]. destruct N. now apply in_map. Qed.
Lemma calculate_at e s v : v <> endo e -> fst (calculate A Q P e t (endo e) s) v t = s v t.
Proof. intros N. destruct (calculate_only A Q P e t (endo e) s v t) as [[-> _]|E]; [easy|exact E]. Qed.

Lemma interdep_1_xk r es : NoDup (map endo es) -> forall old s norm, i_ok (interdep_1 A Q P endo t r es old s norm) = true ->
  exists rest, i_xk (interdep_1 A Q P endo t r es old s norm) = map (fun e => s (endo e) t) es ++ rest.
Proof.
  induction es as [|e es IH]; intros N old s norm H; cbn [interdep_1] in *; [eexists; reflexivity|].
  inversion N as [|? ? N1 N2]; subst. assert (C := calculate_at e s).
  destruct (calculate A Q P e t (endo e) s) as [s1 x]. cbn [fst] in C. destruct (negb _); [discriminate|].
  assert (G : forall y n, i_ok (interdep_1 A Q P endo t r es (tl old) (set s1 (endo e) t y) n) = true ->
    exists rest, i_xk (interdep_1 A Q P endo t r es (tl old) (set s1 (endo e) t y) n) = map (fun e => s (endo e) t) es ++ rest).
  { intros y n Hy. destruct (IH N2 (tl old) _ _ Hy) as (rest & E). exists rest. rewrite E. f_equal. apply map_ext_in.
    intros f Hf. assert (endo f <> endo e) by (intros Q'; apply N1; rewrite <- Q'; now apply in_map).
    rewrite set_other by tauto. now apply C. }
  destruct (num A (s (endo e) t)); cbn [i_ok i_xk] in *;
    (destruct (G _ _ H) as (rest & E); exists rest; now rewrite E).
Qed.
Lemma stage_1_xk es : NoDup (map endo es) -> forall old s, snd (stage_1 A Q P endo t es old s) = true ->
  exists rest, snd (fst (fst (stage_1 A Q P endo t es old s))) = map (fun e => s (endo e) t) es ++ rest.
Proof.
  induction es as [|e es IH]; intros N old s H; cbn [stage_1] in *; [eexists; reflexivity|].
  inversion N as [|? ? N1 N2]; subst. assert (C := calculate_at e s).
  destruct (calculate A Q P e t (endo e) s) as [s1 x]. cbn [fst] in C. destruct (negb _); [discriminate|].
  assert (J := IH N2 (tl old) s1). destruct (stage_1 A Q P endo t es (tl old) s1) as [[[? ?] ?] ?]. cbn [fst snd] in *.
  destruct (J H) as (rest & E). exists rest. rewrite E. cbn [map app]. f_equal. f_equal. apply map_ext_in.
  intros f Hf. apply C. intros Q'. apply N1. rewrite <- Q'. now apply in_map.
Qed.
Lemma interdep_xk inter : NoDup (map endo inter) -> forall old s norm, i_ok (interdep A Q P endo inter t old s norm) = true ->
  exists rest, i_xk (interdep A Q P endo inter t old s norm) = map (fun e => s (endo e) t) inter ++ rest.
Proof.
  intros N old s norm. unfold interdep. destruct le; [now apply interdep_1_xk|]. unfold interdep_2.
  assert (J := stage_1_xk inter N old s). destruct (stage_1 A Q P endo t inter old s) as [[[s2 xks] xs] ok]. cbn [fst snd] in J.
  destruct ok; [|discriminate]. destruct stage_2. cbn. auto.
Qed.

Lemma restore_back es s0 rest : forall s, (forall v p, endos endo t es v p \/ s v p = s0 v p) ->
  forall v p, restore A endo t es (map (fun e => s0 (endo e) t) es ++ rest) s v p = s0 v p.
Proof.
  induction es as [|e es IH]; intros s H v p; cbn [restore map app].
  - destruct (H v p) as [[_ (x & [] & _)]|E]. exact E.
  - apply IH. clear v p. intros v p. destruct (Z.eq_dec v (endo e)) as [->|a]; [destruct (Z.eq_dec p t) as [->|b]|].
    + right. apply set_same.
    + right. rewrite set_other by tauto. destruct (H (endo e) p) as [[-> _]|E]; [easy|exact E].
    + rewrite set_other by tauto. destruct (H v p) as [[-> (x & [<-|Hx] & ->)]|E]; [easy| |now right].
      left. split; eauto.
Qed.

(** * Convergence *)

Lemma iterate_converged inter key n : forall it s xk norm it' i,
  iterate A Q P endo inter t key n it s xk norm = (it', i, CONVERGED) ->
  exists s0 xk0 n0, i = interdep A Q P endo inter t xk0 s0 n0 /\ i_ok i = true /\ le A (i_norm i) (eps P) = true /\
    only A (endos endo t inter) s s0.
Proof.
  induction n as [|n IH]; intros it s xk norm it' i E; cbn [iterate] in E; [discriminate|]. cbv zeta in E.
  destruct (negb (i_ok _)) eqn:E1 in E; [discriminate|]. destruct (key (S it)); [discriminate|].
  destruct (le A _ _) eqn:E2 in E.
  - inversion E; subst. exists s, xk, norm. repeat split; auto; [now apply negb_false_iff|apply only_refl].
  - destruct (IH _ _ _ _ _ _ E) as (s0 & xk0 & n0 & ? & ? & ? & O). exists s0, xk0, n0. repeat split; auto.
    eapply only_trans; [apply interdep_only|exact O].
Qed.
Lemma iterate_iters inter key n : forall it s xk norm,
  (fst (fst (iterate A Q P endo inter t key n it s xk norm)) <= it + n)%nat.
Proof.
  induction n as [|n IH]; intros it s xk norm; cbn [iterate]; [cbn; lia|]. cbv zeta.
  repeat match goal with |- context [if ?b then (_, _, _) else _] => destruct b; [cbn; lia|] end.
  eapply Nat.le_trans; [apply IH|lia].
Qed.

Lemma converged pre inter post key s xk norm : NoDup (map endo inter) ->
  r_stop (sub_simulate A Q P endo pre inter post t key s xk norm) = CONVERGED ->
  exists s0 xk0 n0 b, let i := interdep A Q P endo inter t xk0 s0 n0 in
    i_ok i = true /\ le A (i_norm i) (eps P) = true /\
    only A (endos endo t inter) (solve_block A Q P endo t pre (init_values A P endo pre inter post t s)) s0 /\
    (forall v p, b v p = s0 v p) /\
    r_s (sub_simulate A Q P endo pre inter post t key s xk norm) = solve_block A Q P endo t post b.
Proof.
  intros N. unfold sub_simulate. set (s1 := solve_block A Q P endo t pre _).
  destruct (iterate A Q P endo inter t key (maxit P) 0 s1 xk norm) as [[it i] why] eqn:E.
  destruct why; try discriminate; [|destruct diverge as [[? ?] ?]; discriminate]. intros _.
  destruct (iterate_converged _ _ _ _ _ _ _ _ _ E) as (s0 & xk0 & n0 & -> & H1 & H2 & H3).
  destruct (interdep_xk inter N xk0 s0 n0 H1) as (rest & X).
  exists s0, xk0, n0, (restore A endo t inter (i_xk (interdep A Q P endo inter t xk0 s0 n0)) (i_s (interdep A Q P endo inter t xk0 s0 n0))).
  cbv zeta. repeat split; auto. intros v p. rewrite X. apply restore_back. apply interdep_only.
Qed.
End Ext.
