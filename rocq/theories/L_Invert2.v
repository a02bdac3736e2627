(** Proofs about M_Invert: the tree of the solved equation is a solution. *)
From Coq Require Import ZArith Ascii String List Bool Lia.
From Verif Require Import M_Base M_Time M_Names M_Lex M_Compile M_Bytes M_Exec M_Invert S_Lec S_Eval S_Law S_Invert
  L_Names L_Kdb L_Compile L_Bytes L_Invert.
Import ListNotations.
Open Scope Z_scope.
Local Arguments Z.add : simpl never.
Local Arguments Z.sub : simpl never.

Section Sound.
Context {A : arith} (X : exact A) (E : env A) (rb : str -> list Z) (t : Z).
Notation value := (value A E rb t []).
Notation val e := (value e t).
Notation F := (F A).

Lemma pre_fn f e u : value (EPre (FN f) e) u = do x <- value e u; fn_value A f [x].
Proof. cbn [S_Eval.value]. unfold apply. cbn. destruct (value e u); reflexivity. Qed.
Definition invertible (f : fnr) : bool :=
  match f with Fln | Fexpn | Fuminus | Fuplus | Fcos | Fsin | Ftan | Facos | Fasin | Fatan => true | _ => false end.
Lemma inv_fn f e u w : invertible f = true -> value (EPre (FN f) e) u = Ok w -> num A w = true ->
  exists x, value e u = Ok x /\ num A x = true /\ fn_body A f [x] = Ok w.
Proof.
  intros I V N. rewrite pre_fn in V. destruct (value e u) as [x| |]; try discriminate. cbn [rbind] in V.
  exists x. split; [reflexivity|]. unfold fn_value in V. cbn [all_num forallb] in V. rewrite andb_true_r in V.
  destruct (num A x); [|destruct f; try discriminate I; cbn in V; injection V as <-; rewrite num_na in N; discriminate].
  split; [reflexivity|]. destruct f; try discriminate I; exact V.
Qed.
Lemma inv_bin o a b u w : value (EBin o a b) u = Ok w -> num A w = true ->
  exists x y, value a u = Ok x /\ value b u = Ok y /\ num A x = true /\ num A y = true /\ run_op A o x y = Ok w.
Proof.
  intros V N. cbn [S_Eval.value] in V. destruct (value a u) as [x| |]; try discriminate. cbn [rbind] in V.
  destruct (value b u) as [y| |]; try discriminate. cbn [rbind] in V. exists x, y. split; [reflexivity|]. split; [reflexivity|].
  unfold op_value in V. cbn [all_num forallb] in V. destruct (num A x), (num A y); cbn [andb] in V; auto;
    injection V as <-; rewrite num_na in N; discriminate.
Qed.
Lemma divide_inv a b w : L_divide A a b = w -> num A w = true -> eq A b (ofZ A 0) = false /\ w = dvd A a b.
Proof.
  unfold L_divide. destruct (negb (num A b) || negb (num A a) || eq A b (ofZ A 0)) eqn:Q; intros <- N.
  - rewrite num_na in N. discriminate.
  - apply orb_false_iff in Q. tauto.
Qed.
Lemma logn_inv a w : L_logn A a = w -> num A w = true -> num A a = true /\ le_f A a (ofZ A 0) = false /\ w = log A a.
Proof.
  unfold L_logn. destruct (negb (num A a) || le_f A a (ofZ A 0)) eqn:Q; intros <- N.
  - rewrite num_na in N. discriminate.
  - apply orb_false_iff in Q. destruct Q as [Q1 Q2]. apply negb_false_iff in Q1.
    destruct (is_nan A (log A a)); [rewrite num_na in N; discriminate|tauto].
Qed.
Lemma expn_inv a w : fn_body A Fexpn [a] = Ok w -> num A w = true -> w = exp A a.
Proof.
  cbn. intros H N. destruct (le_f A (max_exp A) a || le_f A a (min_exp A)); [injection H as <-; rewrite num_na in N; discriminate|].
  destruct (le_f A (max_double A) (exp A a) || le_f A (exp A a) (min_double A)); injection H as <-; [rewrite num_na in N; discriminate|reflexivity].
Qed.

Definition change (f : tfnr) (x y : F) : F :=
  match f with
  | Fdiff => sub A x y
  | Frapp => L_divide A x y
  | Fdln => L_logn A (L_divide A x y)
  | _ => let q := L_divide A x y in if num A q then mul A (sub A q (ofZ A 1)) (ofZ A 100) else na A
  end.
Definition relative1 (f : tfnr) : bool := match f with Fdiff | Fdln | Fgrt | Frapp => true | _ => false end.
Lemma inv_time f args sub0 u w : relative1 f = true -> tfn_value A f args sub0 u = Ok w -> num A w = true ->
  exists x y, sub0 u = Ok x /\ tfn_value A Flag args sub0 u = Ok y /\ num A x = true /\ num A y = true /\ change f x y = w.
Proof.
  intros R V N. unfold tfn_value in *. destruct f; try discriminate R;
    (destruct (the_lag A args) as [k| |]; try discriminate V; cbn [rbind] in *;
     destruct (i32 (u - k)) as [p| |]; try discriminate V; cbn [rbind] in *;
     destruct (sub0 u) as [x| |]; try discriminate V; cbn [rbind] in *;
     destruct (sub0 p) as [y| |]; try discriminate V; cbn [rbind] in *;
     exists x, y; unfold all_num in V; cbn [forallb] in V;
     destruct (num A x), (num A y); cbn [andb] in V;
     try (injection V as <-; rewrite num_na in N; discriminate); injection V as V; repeat split; auto).
Qed.
Lemma pre_tfn f e u : value (EPre (TFN f) e) u = tfn_value A f [] (value e) u.
Proof. reflexivity. Qed.
Lemma app_tfn f n e u : value (EApp (TFN f) [n; e] []) u = do c <- value n u; tfn_value A f [c] (value e) u.
Proof. cbn [S_Eval.value]. unfold apply. cbn -[tfn_value]. destruct (value n u); reflexivity. Qed.

(** ** One step *)
Lemma ok_inj (a b : F) : Ok a = Ok b -> a = b.
Proof. congruence. Qed.
Lemma step_fn f acc x w : (match f with Fln | Fexpn | Fuminus | Fuplus | Fcos | Fsin | Ftan => True | _ => False end) ->
  val (undo_fn f acc) = Ok x -> num A x = true -> fn_body A f [x] = Ok w -> num A w = true -> val acc = Ok w.
Proof.
  intros G V N B W. destruct f; try contradiction; cbn [undo_fn] in V.
  1: { apply inv_fn in V; auto. destruct V as (u & V & Nu & Q). cbn in Q, B. apply ok_inj in Q. apply ok_inj in B.
       rewrite V. f_equal. rewrite <- B, <- Q. symmetry. apply (x_neg_neg A X). }
  1: { cbn in B. congruence. }
  all: apply inv_fn in V; auto; destruct V as (u & V & Nu & Q); rewrite V; f_equal.
  - apply expn_inv in Q; auto. cbn in B. apply ok_inj in B. apply logn_inv in B; auto. destruct B as (_ & _ & ->).
    rewrite Q. symmetry. apply (x_log_exp A X).
  - apply expn_inv in B; auto. cbn in Q. apply ok_inj in Q. apply logn_inv in Q; auto. destruct Q as (_ & Q & ->).
    rewrite B. symmetry. apply (x_exp_log A X). exact Q.
  - cbn in Q, B. apply ok_inj in Q. apply ok_inj in B. subst. symmetry. apply (x_sin A X). exact N.
  - cbn in Q, B. apply ok_inj in Q. apply ok_inj in B. subst. symmetry. apply (x_cos A X). exact N.
  - cbn in Q, B. apply ok_inj in Q. apply ok_inj in B. subst. symmetry. apply (x_tan A X). exact N.
Qed.
Lemma step_time f acc lg x y w : relative1 f = true -> val (past f acc lg) = Ok x -> num A x = true ->
  val lg = Ok y -> change f x y = w -> num A w = true -> val acc = Ok w.
Proof.
  intros R V N L C W. destruct f; try discriminate R; cbn [past] in V.
  - apply inv_bin in V; auto. destruct V as (u & y' & Vu & Vy & Nu & Ny & Q). rewrite L in Vy. apply ok_inj in Vy. subst y'.
    rewrite Vu. f_equal. cbn in Q. apply ok_inj in Q. cbn in C. subst. symmetry. apply (x_add_sub A X).
  - apply inv_bin in V; auto. destruct V as (u & y' & Vu & Vy & Nu & Ny & Q). rewrite L in Vy. apply ok_inj in Vy. subst y'.
    rewrite Vu. f_equal. cbn in Q. apply ok_inj in Q. cbn in C. apply divide_inv in C; auto. destruct C as [C ->]. subst.
    symmetry. apply (x_mul_div A X). exact C.
  - apply inv_fn in V; auto. destruct V as (z & Vz & Nz & Q). apply expn_inv in Q; auto.
    apply inv_bin in Vz; auto. destruct Vz as (u & lv & Vu & Vl & Nu & Nl & Qz). cbn in Qz. apply ok_inj in Qz.
    apply inv_fn in Vl; auto. destruct Vl as (y' & Vy & Ny & Ql). rewrite L in Vy. apply ok_inj in Vy. subst y'.
    cbn in Ql. apply ok_inj in Ql. apply logn_inv in Ql; auto. destruct Ql as (_ & Py & ->).
    rewrite Vu. f_equal. cbn in C. apply logn_inv in C; auto. destruct C as (Nd & Pd & ->).
    destruct (divide_inv x y _ eq_refl Nd) as [Zy ->]. rewrite Q, <- Qz, (x_exp_add A X), (x_exp_log A X) by exact Py.
    rewrite (x_mul_div A X) by exact Zy. symmetry. apply (x_log_exp A X).
  - apply inv_bin in V; auto. destruct V as (z & y' & Vz & Vy & Nz & Ny & Q). rewrite L in Vy. apply ok_inj in Vy. subst y'.
    apply inv_bin in Vz; auto. destruct Vz as (q & one & Vq & V1 & Nq & N1 & Qz).
    apply inv_bin in Vq; auto. destruct Vq as (u & c & Vu & Vc & Nu & Nc & Qq).
    cbn in V1, Vc. apply ok_inj in V1. apply ok_inj in Vc. subst one c. cbn in Q, Qz, Qq. apply ok_inj in Q. apply ok_inj in Qz. apply ok_inj in Qq.
    apply divide_inv in Qq; auto. destruct Qq as [Z100 ->].
    rewrite Vu. f_equal. cbn in C. destruct (num A (L_divide A x y)) eqn:Nd; [|subst w; rewrite num_na in W; discriminate].
    destruct (divide_inv x y _ eq_refl Nd) as [Zy Dv]. rewrite Dv in C. subst x z w.
    rewrite (x_mul_div A X) by exact Zy. rewrite (x_add_sub A X). symmetry. apply (x_div_mul A X). exact Z100.
Qed.
Lemma step_left o acc b x y w : (match o with Oplus | Ominus | Otimes | Odivide | Oexp => True | _ => False end) ->
  val (undo_left o acc b) = Ok x -> num A x = true -> val b = Ok y -> run_op A o x y = Ok w -> num A w = true -> val acc = Ok w.
Proof.
  intros G V N L C W. destruct o; try contradiction; cbn [undo_left] in V.
  1-4: apply inv_bin in V; auto; destruct V as (u & y' & Vu & Vy & Nu & Ny & Q); rewrite L in Vy; apply ok_inj in Vy; subst y';
    rewrite Vu; f_equal; cbn in Q, C; apply ok_inj in Q; apply ok_inj in C.
  - subst. symmetry. apply (x_sub_add A X).
  - subst. symmetry. apply (x_add_sub A X).
  - apply divide_inv in C; auto. destruct C as [Zy ->]. subst. symmetry. apply (x_mul_div A X). exact Zy.
  - apply divide_inv in Q; auto. destruct Q as [Zy ->]. subst. symmetry. apply (x_div_mul A X). exact Zy.
  - apply inv_fn in V; auto. destruct V as (z & Vz & Nz & Q). apply expn_inv in Q; auto.
    apply inv_bin in Vz; auto. destruct Vz as (lu & y' & Vl & Vy & Nl & Ny & Qz). rewrite L in Vy. apply ok_inj in Vy. subst y'.
    cbn in Qz. apply ok_inj in Qz. apply divide_inv in Qz; auto. destruct Qz as [Zy ->].
    apply inv_fn in Vl; auto. destruct Vl as (u & Vu & Nu & Ql). cbn in Ql. apply ok_inj in Ql.
    apply logn_inv in Ql; auto. destruct Ql as (_ & Pu & ->). rewrite Vu. f_equal.
    cbn in C. unfold L_exp in C. rewrite Q, (x_exp_pos A X) in C. apply ok_inj in C.
    destruct (is_nan A (pow A (exp A (dvd A (log A u) y)) y)); [subst w; rewrite num_na in W; discriminate|].
    rewrite (x_pow A X), (x_div_mul A X), (x_exp_log A X) in C by assumption. exact C.
Qed.
Lemma step_right o acc a x y w : (match o with Oplus | Ominus | Otimes | Odivide => True | _ => False end) ->
  val (undo_right o acc a) = Ok x -> num A x = true -> val a = Ok y -> run_op A o y x = Ok w -> num A w = true -> val acc = Ok w.
Proof.
  intros G V N L C W. destruct o; try contradiction; cbn [undo_right] in V; apply inv_bin in V; auto.
  - destruct V as (u & y' & Vu & Vy & Nu & Ny & Q); rewrite L in Vy; apply ok_inj in Vy; subst y'.
    rewrite Vu. f_equal. cbn in Q, C. apply ok_inj in Q. apply ok_inj in C. subst. rewrite (x_add_comm A X). symmetry. apply (x_sub_add A X).
  - destruct V as (y' & u & Vy & Vu & Ny & Nu & Q); rewrite L in Vy; apply ok_inj in Vy; subst y'.
    rewrite Vu. f_equal. cbn in Q, C. apply ok_inj in Q. apply ok_inj in C. subst. symmetry. apply (x_sub_sub A X).
  - destruct V as (y' & u & Vy & Vu & Ny & Nu & Q); rewrite L in Vy; apply ok_inj in Vy; subst y'.
    rewrite Vu. f_equal. cbn in Q, C. apply ok_inj in Q. apply ok_inj in C.
    apply divide_inv in C; auto. destruct C as [Zx ->]. apply divide_inv in Q; auto. destruct Q as [Zu ->].
    symmetry. apply (x_div_div A X); assumption.
  - destruct V as (u & y' & Vu & Vy & Nu & Ny & Q); rewrite L in Vy; apply ok_inj in Vy; subst y'.
    rewrite Vu. f_equal. cbn in Q, C. apply ok_inj in Q. apply ok_inj in C. apply divide_inv in Q; auto. destruct Q as [Zy ->]. subst.
    rewrite (x_mul_comm A X). symmetry. apply (x_div_mul A X). exact Zy.
Qed.

Theorem solve_sound x e : forall acc v w, isolable x e -> times x e = 1%nat -> val (solve x acc e) = Ok v ->
  val (ELeaf (LVar x)) = Ok v -> val e = Ok w -> num A w = true -> val acc = Ok w.
Proof.
  induction e using ex_ind2; intros acc v w I T V Vx Ve W; cbn [isolable] in I.
  - destruct l; try discriminate T. unfold times in T. cbn [rpn leaf_atom filter here] in T.
    change ((0 =? 0) && (step period0 =? 0) && str_eqb name x) with (str_eqb name x) in T.
    destruct (str_eqb name x) eqn:S; [|discriminate T]. apply str_eqb_iff in S. subst name.
    cbn [solve] in V. rewrite V. rewrite Ve in Vx. symmetry. exact Vx.
  - rewrite times_par in T. apply (IHe acc v w I T V Vx Ve W).
  - contradiction.
  - destruct I as (I1 & _ & I3). rewrite times_pre in T. destruct f as [f|f|f]; [| |contradiction].
    + apply inv_fn in Ve; [|destruct f; tauto || reflexivity|exact W]. destruct Ve as (y & Ve & Ny & B). cbn [solve] in V.
      apply (step_fn f acc y w); [destruct f; tauto || exact Logic.I| |exact Ny|exact B|exact W]. apply (IHe _ v y I3 T V Vx Ve Ny).
    + rewrite pre_tfn in Ve. apply inv_time in Ve; [|destruct f; tauto || reflexivity|exact W].
      destruct Ve as (y & p & Ve & Vp & Ny & Np & C). cbn [solve] in V.
      apply (step_time f acc (lag1 e) y p w); [destruct f; tauto || reflexivity| |exact Ny|exact Vp|exact C|exact W]. apply (IHe _ v y I3 T V Vx Ve Ny).
  - destruct args as [|n0 [|e [|]]]; try contradiction. destruct sfx; [|contradiction].
    destruct I as (I1 & I2 & I3). rewrite times_app2, I2 in T. cbn in T.
    inversion H as [|? ? _ H2]; subst. inversion H2 as [|? ? He _]; subst.
    destruct f as [f|f|f]; [contradiction| |contradiction]. rewrite app_tfn in Ve.
    destruct (val n0) as [c| |] eqn:Vn; try discriminate Ve. cbn [rbind] in Ve.
    apply inv_time in Ve; [|destruct f; tauto || reflexivity|exact W].
    destruct Ve as (y & p & Ve & Vp & Ny & Np & C). cbn [solve] in V.
    apply (step_time f acc (lag2 n0 e) y p w); [destruct f; tauto || reflexivity| |exact Ny| |exact C|exact W].
    + apply (He _ v y I3 T V Vx Ve Ny).
    + unfold lag2. rewrite app_tfn, Vn. exact Vp.
  - destruct I as (I1 & I2 & I3 & I4). rewrite times_bin in T. cbn [solve] in V.
    apply inv_bin in Ve; [|exact W]. destruct Ve as (p & q & Va & Vb & Np & Nq & C).
    destruct (times x e1) as [|k] eqn:T1.
    + apply (step_right o acc e1 q p w); [destruct o; tauto || (exfalso; lia)| |exact Nq|exact Va|exact C|exact W]. apply (IHe2 _ v q (I4 eq_refl) T V Vx Vb Nq).
    + apply (step_left o acc e2 p q w); [destruct o; tauto || exact Logic.I| |exact Np|exact Vb|exact C|exact W].
      apply (IHe1 _ v p); auto. lia.
Qed.
End Sound.
