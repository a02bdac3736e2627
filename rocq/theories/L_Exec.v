(** The stack machine computes the value of the tree. *)
From Coq Require Import ZArith Ascii String List Bool Lia.
From Verif Require Import M_Base M_Time M_Names M_Lex M_Compile M_Bytes M_Exec S_Lec S_Eval L_Compile L_Bytes L_Link.
Import ListNotations.
Open Scope Z_scope.
Local Arguments Z.add : simpl never.
Local Arguments Z.sub : simpl never.
Local Arguments Z.mul : simpl never.
Local Arguments Z.of_nat : simpl never.
Local Arguments le : simpl never.

(** * Results that are at least as defined *)
Definition rle {X} (a b : res X) : Prop := forall v, a = Ok v -> b = Ok v.
Lemma rle_refl {X} (a : res X) : rle a a. Proof. intros v H. exact H. Qed.
Lemma rle_bind {X Y} (a b : res X) (f g : X -> res Y) : rle a b -> (forall x, rle (f x) (g x)) -> rle (rbind a f) (rbind b g).
Proof. intros H K v. destruct a as [x| |]; try discriminate. rewrite (H x eq_refl). apply K. Qed.
Lemma rle_UB {X} (b : res X) : rle UB b. Proof. intros v H. discriminate. Qed.
Lemma rle_if {X} (c : bool) (a b a' b' : res X) : rle a a' -> rle b b' -> rle (if c then a else b) (if c then a' else b').
Proof. destruct c; auto. Qed.

Section Mono.
Context {A : arith} {E : env A}.
Notation F := (F A).
Definition sle (s s' : Z -> res F) : Prop := forall u, rle (s u) (s' u).
Context {s1 s1' s2 s2' : Z -> res F} (H1 : sle s1 s1') (H2 : sle s2 s2').

Lemma loop_mono {S} (s s' : Z -> res F) (H : sle s s') js : forall (acc : S) f, rle (loop A s js acc f) (loop A s' js acc f).
Proof.
  induction js as [|j js IH]; intros acc f; cbn [loop]; [apply rle_refl|].
  apply rle_bind; [apply H|]. intros x. apply rle_if; [apply IH|apply rle_refl].
Qed.
Lemma loop2_mono {S} (s s' r r' : Z -> res F) (H : sle s s') (K : sle r r') js :
  forall (acc : S) f, rle (loop2 A s r js acc f) (loop2 A s' r' js acc f).
Proof.
  induction js as [|j js IH]; intros acc f; cbn [loop2]; [apply rle_refl|].
  apply rle_bind; [apply H|]. intros x. apply rle_if; [apply rle_refl|].
  apply rle_bind; [apply K|]. intros y. apply rle_if; [apply IH|apply rle_refl].
Qed.
Lemma mean_mono (s s' : Z -> res F) (H : sle s s') a b : rle (L_mean_of A s a b) (L_mean_of A s' a b).
Proof.
  unfold L_mean_of. repeat (apply rle_bind; [apply rle_refl|intros ?]).
  apply rle_bind; [apply loop_mono; assumption|intros ?]. apply rle_refl.
Qed.
Lemma search_mono (s s' : Z -> res F) (H : sle s s') keep js : forall stop l,
  rle (search A s keep js stop l) (search A s' keep js stop l).
Proof.
  induction js as [|j js IH]; intros stop l; cbn [search]; [apply rle_refl|].
  apply rle_bind; [apply H|intros v]. apply rle_if; [apply rle_refl|apply IH].
Qed.
Lemma near_mono (s s' : Z -> res F) (H : sle s s') ok t : rle (near A s ok t) (near A s' ok t).
Proof. unfold near. apply rle_if; [apply H|apply rle_refl]. Qed.
Lemma find_mono (s s' : Z -> res F) (H : sle s s') x js : rle (find_near A x s js) (find_near A x s' js).
Proof.
  induction js as [|j js IH]; cbn [find_near]; [apply rle_refl|].
  apply rle_bind; [apply H|intros v]. apply rle_if; [apply rle_refl|]. apply rle_if; [apply rle_refl|apply IH].
Qed.
Lemma mapM_mono (s s' : Z -> res F) (H : sle s s') js : rle (mapM s js) (mapM s' js).
Proof.
  induction js as [|j js IH]; cbn [mapM]; [apply rle_refl|].
  apply rle_bind; [apply H|intros v]. apply rle_bind; [apply IH|intros l]. apply rle_refl.
Qed.
Lemma calcvals_mono (s s' : Z -> res F) (H : sle s s') t b : rle (calcvals A E s t b) (calcvals A E s' t b).
Proof.
  unfold calcvals. apply rle_bind; [apply search_mono, H|intros [t1 y1]]. apply rle_bind; [apply search_mono, H|intros [t0 y0]].
  repeat (apply rle_if; [apply rle_refl|]).
  apply rle_if; (apply rle_bind; [apply search_mono, H|intros ?; apply rle_refl]).
Qed.
Ltac mono :=
  repeat first
    [ apply rle_refl
    | apply rle_UB
    | apply loop_mono; assumption
    | apply loop2_mono; try assumption; try (intros ?; auto)
    | apply mean_mono; assumption
    | apply mapM_mono; assumption
    | apply near_mono; assumption
    | apply find_mono; assumption
    | apply calcvals_mono; assumption
    | apply H1 | apply H2
    | apply rle_if
    | apply rle_bind; [|intros ?]
    | match goal with |- rle (let '(_, _) := ?p in _) _ => destruct p end
    | match goal with |- rle (match ?p with Some _ => _ | None => _ end) _ => destruct p end ].
Lemma corr_mono a b : rle (calc_corr A s1 s2 a b) (calc_corr A s1' s2' a b).
Proof. unfold calc_corr. mono. Qed.
Lemma covar_mono (r r' q q' : Z -> res F) (H : sle r r') (K : sle q q') a b o : rle (calc_covar A r q a b o) (calc_covar A r' q' a b o).
Proof. unfold calc_covar. mono. Qed.
Lemma acf_mono a b t : rle (calc_acf A s1 s2 a b t) (calc_acf A s1' s2' a b t).
Proof. unfold calc_acf. mono. Qed.
Lemma interpol_mono t : rle (calc_interpol A E s1 t) (calc_interpol A E s1' t).
Proof. unfold calc_interpol. mono. Qed.
Lemma app_mono t : rle (calc_app A E s1 s2 t) (calc_app A E s1' s2' t).
Proof. unfold calc_app. mono. Qed.
Lemma dapp_mono t : rle (calc_dapp A E s1 s2 t) (calc_dapp A E s1' s2' t).
Proof. unfold calc_dapp. mono. Qed.
Lemma hp_mono o a b t : rle (calc_hp A o s1 s2 a b t) (calc_hp A o s1' s2' a b t).
Proof. unfold calc_hp. mono. Qed.

Lemma time_range_frame t l st nargs a b s' : time_range A t l nargs = Ok (a, b, s') ->
  time_range A t (l ++ st) nargs = Ok (a, b, s' ++ st).
Proof.
  unfold time_range. destruct (nargs =? 1); [intros [= <- <- <-]; reflexivity|].
  destruct (nargs =? 3).
  - destruct l as [|x l]; [discriminate|]. cbn [pop rbind fst snd app].
    destruct (intlag A x) as [to| |]; try discriminate. cbn [rbind].
    destruct l as [|y l]; [discriminate|]. cbn [pop rbind fst snd app].
    destruct (intlag A y) as [from| |]; try discriminate. cbn [rbind]. destruct (to <? from); intros [= <- <- <-]; reflexivity.
  - cbn [rbind]. destruct l as [|y l]; [discriminate|]. cbn [pop rbind fst snd app].
    destruct (intlag A y) as [from| |]; try discriminate. cbn [rbind]. destruct (t <? from); intros [= <- <- <-]; reflexivity.
Qed.
Lemma mtfn_ok f nb args st t v : mtfn_value A E f nb args s1 s2 t = Ok v ->
  mtfn_run A E f nb s1' s2' t (rev args ++ st) = Ok (v :: st).
Proof.
  unfold mtfn_value, mtfn_run. intros H.
  match type of H with rbind (rbind ?a _) _ = _ => destruct a as [[[from to] s']| |] eqn:T; try discriminate H end.
  match goal with |- rbind ?a _ = _ => assert (T' : a = Ok (from, to, s' ++ st)) end.
  { destruct f; try (apply time_range_frame; assumption); injection T as <- <- <-; reflexivity. }
  rewrite T'. cbn [rbind] in *.
  match type of H with rbind (rbind ?a _) _ = _ => destruct a as [w| |] eqn:W; try discriminate end.
  cbn [rbind] in H. destruct s'; [|discriminate]. injection H as <-.
  match goal with |- rbind ?b _ = _ => assert (W' : b = Ok w) end; [|rewrite W'; reflexivity].
  revert w W. 
  match goal with |- forall w, ?a = Ok w -> ?b = Ok w => change (rle a b) end.
  destruct f; first [apply corr_mono|apply covar_mono; assumption|apply acf_mono|apply interpol_mono|apply app_mono
    |apply dapp_mono|apply hp_mono|idtac].
  - apply rle_bind; [apply covar_mono; assumption|intros; apply rle_refl].
  - mono.
Qed.

(** ** Time functions *)
Lemma loop_over {S} (s s' : Z -> res F) (H : sle s s') (f : S -> F -> S) js : forall vs acc, mapM s js = Ok vs ->
  loop A s' js acc f = Ok (if all_num A vs then Some (fold_left f vs acc) else None).
Proof.
  induction js as [|j js IH]; intros vs acc; cbn [mapM loop].
  - intros [= <-]. reflexivity.
  - destruct (s j) as [v| |] eqn:J; try discriminate. cbn [rbind]. destruct (mapM s js) as [l| |]; try discriminate.
    cbn [rbind]. intros [= <-]. rewrite (H _ _ J). cbn [rbind all_num forallb fold_left].
    destruct (num A v); [|reflexivity]. apply IH. reflexivity.
Qed.
Lemma last_num_ok (s s' : Z -> res F) (H : sle s s') js : forall vs, mapM s js = Ok vs ->
  last_num A s' (rev js) = Ok (last_number A vs).
Proof.
  unfold last_number.
  assert (G : forall l acc, (exists us, mapM s l = Ok us /\
     last_num A s' (l ++ acc) = match filter (num A) us with [] => last_num A s' acc | x :: _ => Ok x end) \/ (forall us, mapM s l <> Ok us)).
  { induction l as [|j l IH]; intros acc.
    - left. exists []. split; reflexivity.
    - cbn [mapM app last_num]. destruct (s j) as [v| |] eqn:J; [|right; discriminate..]. cbn [rbind].
      destruct (IH acc) as [(us & U1 & U2)|N].
      + left. exists (v :: us). rewrite U1. split; [reflexivity|]. rewrite (H _ _ J). cbn [rbind filter].
        destruct (num A v); [reflexivity|exact U2].
      + right. destruct (mapM s l) as [us| |]; try discriminate. exfalso. apply (N us). reflexivity. }
  assert (R : forall l us, mapM s l = Ok us -> mapM s (rev l) = Ok (rev us)).
  { assert (Ap : forall a b x y, mapM s a = Ok x -> mapM s b = Ok y -> mapM s (a ++ b) = Ok (x ++ y)).
    { induction a as [|j a IH]; intros b x y; cbn [mapM app]; [intros [= <-]; auto|].
      destruct (s j); try discriminate. cbn [rbind]. destruct (mapM s a) eqn:Q; try discriminate. cbn [rbind].
      intros [= <-] B. rewrite (IH _ _ _ eq_refl B). reflexivity. }
    induction l as [|j l IH]; intros us; cbn [mapM rev]; [intros [= <-]; reflexivity|].
    destruct (s j) as [v| |] eqn:J; try discriminate. cbn [rbind]. destruct (mapM s l) eqn:Q; try discriminate. cbn [rbind].
    intros [= <-]. cbn [rev]. apply Ap; [apply IH; reflexivity|]. cbn [mapM]. rewrite J. reflexivity. }
  intros vs V. apply R in V. destruct (G (rev js) []) as [(us & U1 & U2)|N]; [|exfalso; eapply N; eassumption].
  rewrite U1 in V. injection V as ->. rewrite app_nil_r in U2. rewrite U2. cbn [last_num].
  clear. assert (L : forall l : list F, match rev l with [] => Ok (na A) | x :: _ => Ok x end = Ok (last l (na A))).
  { induction l as [|x l IH] using rev_ind; [reflexivity|]. rewrite rev_app_distr, last_last. reflexivity. }
  assert (Fr : forall l, filter (num A) (rev l) = rev (filter (num A) l)).
  { induction l as [|x l IH]; [reflexivity|]. cbn [rev filter]. rewrite filter_app, IH. cbn [filter].
    destruct (num A x); cbn [rev]; [reflexivity|apply app_nil_r]. }
  rewrite Fr. apply L.
Qed.

Lemma lag_ok args st k n : the_lag A args = Ok k -> n = length args ->
  lag_arg A (Z.of_nat (n + 1)) (rev args ++ st) = Ok (k, st).
Proof.
  intros H ->. destruct args as [|x [|]]; cbn in *; try discriminate.
  - injection H as <-. reflexivity.
  - unfold lag_arg. change (Z.of_nat 2 =? 2) with true. cbn [pop rbind fst snd]. rewrite H. reflexivity.
Qed.
Lemma bounds_ok args t st a b n : bounds A args t = Ok (a, b) -> n = length args ->
  time_range A t (rev args ++ st) (Z.of_nat (n + 1)) = Ok (a, b, st).
Proof.
  intros H ->. unfold time_range. destruct args as [|x [|y [|]]]; cbn [bounds] in H; try discriminate.
  - injection H as <- <-. reflexivity.
  - change (Z.of_nat (length [x] + 1) =? 1) with false. change (Z.of_nat (length [x] + 1) =? 3) with false. cbn [rbind rev app pop fst snd].
    destruct (intlag A x) as [i| |]; try discriminate. cbn [rbind] in *. injection H as <- <-.
    destruct (Z.ltb_spec t i); [rewrite Z.min_r, Z.max_l by lia|rewrite Z.min_l, Z.max_r by lia]; reflexivity.
  - change (Z.of_nat (length [x; y] + 1) =? 1) with false. change (Z.of_nat (length [x; y] + 1) =? 3) with true. cbn [rbind rev app pop fst snd].
    destruct (intlag A x) as [i| |] eqn:X; try discriminate. destruct (intlag A y) as [j| |]; try discriminate.
    cbn [rbind pop fst snd] in *. rewrite X. cbn [rbind]. injection H as <- <-.
    destruct (Z.ltb_spec j i); [rewrite Z.min_r, Z.max_l by lia|rewrite Z.min_l, Z.max_r by lia]; reflexivity.
Qed.

Ltac step_in H := match type of H with rbind ?a _ = _ => let E := fresh "E" in destruct a as [?| |] eqn:E; try discriminate H; cbn [rbind] in H end.
Lemma tfn_ok f args st t v : tfn_value A f args s1 t = Ok v ->
  tfn_run A f (Z.of_nat (length args + 1)) s1' t (rev args ++ st) = Ok (v :: st).
Proof.
  intros H.
  assert (WIN : match f with Fvmax | Fvmin | Fsum | Fprod | Fmean | Fstderr | Flastobs => True | _ => False end ->
    exists a b vs, bounds A args t = Ok (a, b) /\ i32 (b + 1) = Ok (b + 1) /\ i32 (b - a + 1) = Ok (b - a + 1) /\
      i32 (a - 1) = Ok (a - 1) /\ 1 <= b - a + 1 /\ mapM s1 (seqZ a (Z.to_nat (b - a + 1))) = Ok vs /\
      v = match f with
          | Flastobs => last_number A vs
          | _ => if all_num A vs then
             match f with
             | Fvmax => fold_left (fun m v => if lt A m v then v else m) (tl vs) (hd (na A) vs)
             | Fvmin => fold_left (fun m v => if lt A v m then v else m) (tl vs) (hd (na A) vs)
             | Fsum => sum_of A vs
             | Fprod => fold_left (fun p v => mul A p v) vs (ofZ A 1)
             | Fmean => if num A (sum_of A vs) then dvd A (sum_of A vs) (ofZ A (b - a + 1)) else na A
             | _ => let s := sum_of A vs in
                    let s2 := sum_of A (map (fun v => mul A v v) vs) in
                    let x := sub A s2 (dvd A (mul A s s) (ofZ A (b - a + 1))) in
                    if (b - a + 1 <=? 1) || lt A x (ofZ A 0) then na A else sqrt A (dvd A x (ofZ A (b - a + 1 - 1)))
             end else na A end).
  { intros I. unfold tfn_value in H.
    assert (Q : exists a b, bounds A args t = Ok (a, b)).
    { destruct f; try contradiction; destruct (bounds A args t) as [[a b]| |]; try discriminate; eauto. }
    destruct Q as (a & b & Q). exists a, b.
    assert (I32 : forall z y, i32 z = Ok y -> y = z) by (intros z y; unfold i32; destruct (_ && _); congruence).
    destruct f; try contradiction; rewrite Q in H; cbn [rbind] in H; step_in H; step_in H; step_in H;
      apply I32 in E0 as Y0; apply I32 in E1 as Y1; apply I32 in E2 as Y2; subst;
      (destruct (Z.ltb_spec (b - a + 1) 1); [discriminate|]); unfold over in H; step_in H;
      injection H as <-; eexists; repeat split; try eassumption; reflexivity. }
  destruct f; try discriminate H.
  1-6: unfold tfn_value in H; step_in H; unfold tfn_run; rewrite (lag_ok args st _ _ E0 eq_refl); cbn [rbind fst snd].
  - step_in H. rewrite ?E1. cbn [rbind]. rewrite (H1 _ _ H). reflexivity.
  - step_in H. step_in H. step_in H. injection H as <-.
    unfold two_values. rewrite (H1 _ _ E2). cbn [rbind]. cbn [all_num forallb].
    destruct (num A a1); [|reflexivity]. cbn [negb andb]. rewrite ?E1. cbn [rbind]. rewrite (H1 _ _ E3). cbn [rbind].
    destruct (num A a2); reflexivity.
  - step_in H. step_in H. step_in H. injection H as <-.
    unfold two_values. rewrite (H1 _ _ E2). cbn [rbind]. cbn [all_num forallb].
    destruct (num A a1); [|reflexivity]. cbn [negb andb]. rewrite ?E1. cbn [rbind]. rewrite (H1 _ _ E3). cbn [rbind].
    destruct (num A a2); reflexivity.
  - step_in H. step_in H. step_in H. injection H as <-.
    unfold two_values. rewrite (H1 _ _ E2). cbn [rbind]. cbn [all_num forallb].
    destruct (num A a1); [|reflexivity]. cbn [negb andb]. rewrite ?E1. cbn [rbind]. rewrite (H1 _ _ E3). cbn [rbind].
    destruct (num A a2); reflexivity.
  - step_in H. step_in H. step_in H. injection H as <-.
    unfold two_values. rewrite (H1 _ _ E2). cbn [rbind]. cbn [all_num forallb].
    destruct (num A a1); [|reflexivity]. cbn [negb andb]. rewrite ?E1. cbn [rbind]. rewrite (H1 _ _ E3). cbn [rbind].
    destruct (num A a2); reflexivity.
  - replace (if a <? 1 then 1 else a) with (Z.max a 1) by (destruct (Z.ltb_spec a 1); lia).
    step_in H. rewrite ?E1. cbn [rbind]. unfold over in H. step_in H. injection H as <-.
    rewrite (loop_over _ _ H1 _ _ _ _ E2). cbn [rbind]. destruct (all_num A a1); reflexivity.
  - destruct (WIN I) as (a & b & vs & B & I1 & I2 & I3 & N & M & ->). unfold tfn_run.
    rewrite (bounds_ok _ _ st _ _ _ B eq_refl). cbn [rbind].
    destruct (Z.to_nat (b - a + 1)) as [|n] eqn:Hn; [lia|]. cbn [seqZ mapM] in M. step_in M. step_in M. injection M as <-.
    rewrite (H1 _ _ E0). cbn [rbind all_num forallb hd tl].
    destruct (num A a0); [|reflexivity]. cbn [negb andb]. unfold window. rewrite I1. cbn [rbind].
    replace (Z.to_nat (b - (a + 1) + 1)) with n by lia. rewrite (loop_over _ _ H1 _ _ _ _ E1). cbn [rbind].
    unfold all_num. destruct (forallb (num A) a1); reflexivity.
  - destruct (WIN I) as (a & b & vs & B & I1 & I2 & I3 & N & M & ->). unfold tfn_run.
    rewrite (bounds_ok _ _ st _ _ _ B eq_refl). cbn [rbind].
    destruct (Z.to_nat (b - a + 1)) as [|n] eqn:Hn; [lia|]. cbn [seqZ mapM] in M. step_in M. step_in M. injection M as <-.
    rewrite (H1 _ _ E0). cbn [rbind all_num forallb hd tl].
    destruct (num A a0); [|reflexivity]. cbn [negb andb]. unfold window. rewrite I1. cbn [rbind].
    replace (Z.to_nat (b - (a + 1) + 1)) with n by lia. rewrite (loop_over _ _ H1 _ _ _ _ E1). cbn [rbind].
    unfold all_num. destruct (forallb (num A) a1); reflexivity.
  - destruct (WIN I) as (a & b & vs & B & I1 & I2 & I3 & N & M & ->). unfold tfn_run.
    rewrite (bounds_ok _ _ st _ _ _ B eq_refl). cbn [rbind]. unfold window. rewrite I1. cbn [rbind].
    rewrite (loop_over _ _ H1 _ _ _ _ M). cbn [rbind]. destruct (all_num A vs); reflexivity.
  - destruct (WIN I) as (a & b & vs & B & I1 & I2 & I3 & N & M & ->). unfold tfn_run.
    rewrite (bounds_ok _ _ st _ _ _ B eq_refl). cbn [rbind]. unfold window. rewrite I1. cbn [rbind].
    rewrite (loop_over _ _ H1 _ _ _ _ M). cbn [rbind]. destruct (all_num A vs); reflexivity.
  - destruct (WIN I) as (a & b & vs & B & I1 & I2 & I3 & N & M & ->). unfold tfn_run.
    rewrite (bounds_ok _ _ st _ _ _ B eq_refl). cbn [rbind]. unfold L_mean_of, window. rewrite I1. cbn [rbind].
    replace (1 + b - a) with (b - a + 1) by lia. rewrite I2. cbn [rbind].
    rewrite (loop_over _ _ H1 _ _ _ _ M). cbn [rbind]. destruct (all_num A vs); cbn [or_na]; [|rewrite num_na]; reflexivity.
  - destruct (WIN I) as (a & b & vs & B & I1 & I2 & I3 & N & M & ->). unfold tfn_run.
    rewrite (bounds_ok _ _ st _ _ _ B eq_refl). cbn [rbind]. unfold window. rewrite I1. cbn [rbind].
    rewrite (loop_over _ _ H1 _ _ _ _ M). cbn [rbind]. destruct (all_num A vs); [|reflexivity].
    assert (G : forall vs x y, fold_left (fun s v => (add A (fst s) v, add A (snd s) (mul A v v))) vs (x, y) =
      (fold_left (fun s v => add A s v) vs x, fold_left (fun s v => add A s v) (map (fun v => mul A v v) vs) y)).
    { clear. induction vs as [|v vs IH]; intros x y; [reflexivity|]. cbn [fold_left map fst snd]. apply IH. }
    rewrite G. replace (1 + b - a) with (b - a + 1) by lia. rewrite I2. cbn [rbind]. reflexivity.
  - destruct (WIN I) as (a & b & vs & B & I1 & I2 & I3 & N & M & ->). unfold tfn_run.
    rewrite (bounds_ok _ _ st _ _ _ B eq_refl). cbn [rbind]. rewrite I3. cbn [rbind].
    rewrite (last_num_ok _ _ H1 _ _ M). reflexivity.
Qed.
End Mono.
