(** Lemmas on matrices in an exact arithmetic. *)
From Coq Require Import ZArith List Bool Lia Field QArith Qcanon.
From Verif Require Import M_Base M_Exec M_Exact M_Matrix S_Matrix.
Import ListNotations.
Open Scope nat_scope.

Lemma nth_seq_map {X} (f : nat -> X) n i d : i < n -> nth i (map f (seq 0 n)) d = f i.
Proof. intros H. rewrite nth_indep with (d' := f 0) by (rewrite map_length, seq_length; exact H). rewrite map_nth, seq_nth by exact H. reflexivity. Qed.

Section Field.
Context (A : arith) (FL : field_like A).
Notation F := (F A).
Notation "x +. y" := (add A x y) (at level 50, left associativity).
Notation "x -. y" := (sub A x y) (at level 50, left associativity).
Notation "x *. y" := (mul A x y) (at level 40, left associativity).
Notation "x /. y" := (dvd A x y) (at level 40, left associativity).
Notation "# z" := (ofZ A z) (at level 1).
Notation "~. x" := (neg A x) (at level 35, right associativity).
Let Ft := fl_field A FL.
Add Field AField : Ft.
Notation Sum := (Sum A).

Lemma one_zero : #1 <> #0.
Proof. exact (F_1_neq_0 Ft). Qed.
Lemma eq_false x y : eq A x y = false -> x <> y.
Proof. intros H E. apply (fl_eq A FL) in E. congruence. Qed.
Lemma get_build nl nc f i j : i < nl -> j < nc -> get (build A nl nc f) i j = f i j.
Proof. intros Hi Hj. unfold get, build. rewrite nth_seq_map by exact Hi. apply nth_seq_map. exact Hj. Qed.
Lemma total_Sum n f : total_to A n f = Sum n f.
Proof.
  unfold total_to. induction n as [|n IH]; [reflexivity|]. rewrite seq_S, fold_left_app, IH. reflexivity.
Qed.
Lemma Sum_ext n f g : (forall k, k < n -> f k = g k) -> Sum n f = Sum n g.
Proof. induction n as [|n IH]; intros H; [reflexivity|]. cbn. rewrite IH by (intros; apply H; lia). rewrite H by lia. reflexivity. Qed.
Lemma Sum_add n f g : Sum n (fun k => f k +. g k) = Sum n f +. Sum n g.
Proof. induction n as [|n IH]; cbn; [ring|]. rewrite IH. ring. Qed.
Lemma Sum_scale n x f : Sum n (fun k => x *. f k) = x *. Sum n f.
Proof. induction n as [|n IH]; cbn; [ring|]. rewrite IH. ring. Qed.
Lemma Sum_zero n f : (forall k, k < n -> f k = #0) -> Sum n f = #0.
Proof. intros H. rewrite (Sum_ext n f (fun _ => #0 *. #0)) by (intros k Hk; rewrite (H k Hk); ring). rewrite Sum_scale. ring. Qed.
Lemma Sum_at n f m : m < n -> Sum n f = f m +. Sum n (fun k => if Nat.eqb k m then #0 else f k).
Proof.
  induction n as [|n IH]; intros H; [lia|]. cbn [S_Matrix.Sum]. destruct (Nat.eq_dec m n) as [->|N].
  - rewrite Nat.eqb_refl. rewrite (Sum_ext n (fun k => if Nat.eqb k n then #0 else f k) f).
    + ring.
    + intros k Hk. destruct (Nat.eqb_spec k n); [lia|reflexivity].
  - rewrite IH by lia. destruct (Nat.eqb_spec n m); [lia|]. ring.
Qed.
Lemma Sum_one n f m : m < n -> (forall k, k < n -> k <> m -> f k = #0) -> Sum n f = f m.
Proof.
  intros H Z. rewrite (Sum_at n f m H), (Sum_zero n (fun k => if Nat.eqb k m then #0 else f k)).
  - ring.
  - intros k Hk. destruct (Nat.eqb_spec k m); [reflexivity|]. apply Z; assumption.
Qed.
Lemma Sum_swap n m f : Sum n (fun i => Sum m (fun j => f i j)) = Sum m (fun j => Sum n (fun i => f i j)).
Proof.
  induction n as [|n IH].
  - symmetry. apply Sum_zero. reflexivity.
  - cbn [S_Matrix.Sum]. rewrite IH, <- Sum_add. reflexivity.
Qed.
Lemma Sum_split n m f : Sum (n + m) f = Sum n f +. Sum m (fun k => f (n + k)).
Proof. induction m as [|m IH]; [rewrite Nat.add_0_r; cbn; ring|]. rewrite Nat.add_succ_r. cbn [S_Matrix.Sum]. rewrite IH. ring. Qed.

(** * The inverse *)

(** The exchange: [t] sends u to v, one being subtracted on the diagonal. *)
Definition sends (n : nat) (t : mat A) (u v : nat -> F) : Prop := forall i, i < n -> Sum n (fun k => get t i k *. u k) -. u i = v i.
Definition put (u : nat -> F) (m : nat) (x : F) (k : nat) : F := if Nat.eqb k m then x else u k.
Lemma sum_put n f u m x : m < n -> Sum n (fun k => f k *. put u m x k) = Sum n (fun k => f k *. u k) +. f m *. (x -. u m).
Proof.
  intros H. rewrite (Sum_at n _ m H), (Sum_at n (fun k => f k *. u k) m H). unfold put at 1. rewrite Nat.eqb_refl.
  rewrite (Sum_ext n (fun k => if Nat.eqb k m then #0 else f k *. put u m x k) (fun k => if Nat.eqb k m then #0 else f k *. u k)).
  - ring.
  - intros k _. unfold put. destruct (Nat.eqb k m); reflexivity.
Qed.
Lemma inv_step_spec n m t t' : m < n -> inv_step A n m t = Some t' ->
  forall u v, sends n t' u v <-> sends n t (put u m (~. v m)) (put v m (~. u m)).
Proof.
  intros Hm H u v. unfold inv_step in H. set (p := get t m m -. #1) in * . destruct (eq A p #0) eqn:Ep; [discriminate|].
  apply eq_false in Ep. injection H as <-.
  set (X := fun i => Sum n (fun k => get t i k *. u k)).
  assert (Rm : Sum n (fun k => get (build A n n (fun i j => if Nat.eqb i m then get t m j /. p else get t i j -. get t i m *. (get t m j /. p))) m k *. u k) = X m /. p).
  { rewrite (Sum_ext n _ (fun k => (#1 /. p) *. (get t m k *. u k))).
    - rewrite Sum_scale. unfold X. field. exact Ep.
    - intros k Hk. rewrite get_build by assumption. rewrite Nat.eqb_refl. field. exact Ep. }
  assert (Ri : forall i, i < n -> i <> m ->
     Sum n (fun k => get (build A n n (fun i j => if Nat.eqb i m then get t m j /. p else get t i j -. get t i m *. (get t m j /. p))) i k *. u k) = X i -. get t i m *. (X m /. p)).
  { intros i Hi N. rewrite (Sum_ext n _ (fun k => get t i k *. u k +. (~. (get t i m /. p)) *. (get t m k *. u k))).
    - rewrite Sum_add, Sum_scale. unfold X. field. exact Ep.
    - intros k Hk. rewrite get_build by assumption. destruct (Nat.eqb_spec i m); [contradiction|]. field. exact Ep. }
  assert (Lm : Sum n (fun k => get t m k *. put u m (~. v m) k) = X m +. (p +. #1) *. (~. v m -. u m)).
  { rewrite sum_put by exact Hm. unfold X. replace (get t m m) with (p +. #1) by (unfold p; ring). ring. }
  assert (Li : forall i, Sum n (fun k => get t i k *. put u m (~. v m) k) = X i +. get t i m *. (~. v m -. u m)).
  { intros i. rewrite sum_put by exact Hm. reflexivity. }
  clearbody X. unfold sends. split; intros H.
  - pose proof (H m Hm) as Hmm. rewrite Rm in Hmm.
    assert (Vm : X m = p *. (v m +. u m)) by (rewrite <- Hmm; field; exact Ep).
    intros i Hi. destruct (Nat.eq_dec i m) as [->|N].
    + rewrite Lm. unfold put at 1 2. rewrite Nat.eqb_refl, Vm. ring.
    + rewrite Li. specialize (H i Hi). rewrite (Ri i Hi N) in H. unfold put. destruct (Nat.eqb_spec i m); [contradiction|].
      rewrite <- H, Vm. field. exact Ep.
  - pose proof (H m Hm) as Hmm. rewrite Lm in Hmm. unfold put in Hmm. rewrite Nat.eqb_refl in Hmm.
    assert (Vm : X m = p *. (v m +. u m)).
    { transitivity ((X m +. (p +. #1) *. (~. v m -. u m) -. ~. v m) +. u m +. p *. (v m +. u m)); [ring|]. rewrite Hmm. ring. }
    intros i Hi. destruct (Nat.eq_dec i m) as [->|N].
    + rewrite Rm, Vm. field. exact Ep.
    + rewrite (Ri i Hi N). specialize (H i Hi). rewrite Li in H. unfold put in H. destruct (Nat.eqb_spec i m); [contradiction|].
      rewrite <- H, Vm. field. exact Ep.
Qed.
(** Vectors during the loop: the first m components are exchanged. *)
Definition mixed (m : nat) (y x : nat -> F) (k : nat) : F := if Nat.ltb k m then y k else ~. x k.
Lemma sends_ext n t u v u' v' : (forall k, k < n -> u k = u' k) -> (forall k, k < n -> v k = v' k) -> sends n t u v -> sends n t u' v'.
Proof.
  intros Hu Hv H i Hi. rewrite <- (Hv i Hi), <- (H i Hi), <- (Hu i Hi). f_equal. apply Sum_ext. intros k Hk. rewrite (Hu k Hk). reflexivity.
Qed.
Lemma inv_steps_spec n : forall j m t t', m + j <= n -> inv_steps A n (seq m j) t = Some t' ->
  forall y x, sends n t (mixed m y x) (mixed m x y) <-> sends n t' (mixed (m + j) y x) (mixed (m + j) x y).
Proof.
  induction j as [|j IH]; intros m t t' E H y x.
  - cbn in H. injection H as <-. rewrite Nat.add_0_r. reflexivity.
  - cbn [seq inv_steps] in H. destruct (inv_step A n m t) as [t1|] eqn:E1; [|discriminate].
    replace (m + S j) with (S m + j) by lia. rewrite <- (IH (S m) t1 t' ltac:(lia) H y x). rewrite (inv_step_spec n m t t1 ltac:(lia) E1).
    assert (K : forall a b k, k < n -> mixed m a b k = put (mixed (S m) a b) m (~. mixed (S m) b a m) k).
    { intros a b k Hk. unfold put, mixed. destruct (Nat.eqb_spec k m) as [->|N].
      - rewrite Nat.ltb_irrefl. destruct (Nat.ltb_spec m (S m)); [reflexivity|lia].
      - destruct (Nat.ltb_spec k m), (Nat.ltb_spec k (S m)); try reflexivity; lia. }
    split; apply sends_ext; intros k Hk; rewrite ?(K y x k Hk), ?(K x y k Hk); reflexivity.
Qed.
Definition plus_one (n : nat) (a : mat A) : mat A := build A n n (fun i j => if Nat.eqb i j then get a i j +. #1 else get a i j).
Lemma sends_start n a x y : sends n (plus_one n a) (mixed 0 y x) (mixed 0 x y) <-> forall i, i < n -> Sum n (fun k => get a i k *. x k) = y i.
Proof.
  unfold plus_one. assert (Q : forall i, i < n -> Sum n (fun k => get (build A n n (fun i j => if Nat.eqb i j then get a i j +. #1 else get a i j)) i k *. mixed 0 y x k)
     -. mixed 0 y x i = ~. Sum n (fun k => get a i k *. x k)).
  { intros i Hi. rewrite (Sum_at n _ i Hi), (Sum_at n (fun k => get a i k *. x k) i Hi). rewrite get_build by assumption. rewrite Nat.eqb_refl.
    rewrite (Sum_ext n (fun k => if Nat.eqb k i then #0 else get _ i k *. mixed 0 y x k) (fun k => ~. #1 *. (if Nat.eqb k i then #0 else get a i k *. x k))).
    - rewrite Sum_scale. unfold mixed. cbn [Nat.ltb]. destruct (Nat.ltb_spec i 0); [lia|]. ring.
    - intros k Hk. destruct (Nat.eqb_spec k i); [ring|]. rewrite get_build by assumption. destruct (Nat.eqb_spec i k); [congruence|].
      unfold mixed. destruct (Nat.ltb_spec k 0); [lia|]. ring. }
  unfold sends. split; intros H i Hi; specialize (H i Hi).
  - rewrite (Q i Hi) in H. unfold mixed in H. destruct (Nat.ltb_spec i 0); [lia|].
    transitivity (~. (~. Sum n (fun k => get a i k *. x k))); [ring|]. rewrite H. ring.
  - rewrite (Q i Hi), H. unfold mixed. destruct (Nat.ltb_spec i 0); [lia|]. reflexivity.
Qed.
(** The inverse and the matrix exchange vectors. *)
Lemma inv_spec n a b : M_inv_1 A n a = Some b -> forall x y,
  (forall i, i < n -> Sum n (fun k => get a i k *. x k) = y i) <-> (forall i, i < n -> Sum n (fun k => get b i k *. y k) = x i).
Proof.
  intros H x y. unfold M_inv_1 in H. destruct (inv_steps A n (seq 0 n) _) as [t|] eqn:E; [|discriminate]. injection H as <-.
  pose proof (inv_steps_spec n n 0 _ t ltac:(lia) E y x) as Sp. cbn [Nat.add] in Sp.
  pose proof (sends_start n a x y) as S0. unfold plus_one in S0.
  assert (S1 : sends n t (mixed n y x) (mixed n x y)
      <-> forall i, i < n -> Sum n (fun k => get (build A n n (fun i j => if Nat.eqb i j then get t i j -. #1 else get t i j)) i k *. y k) = x i).
  { assert (Mx : forall a b k, k < n -> mixed n a b k = a k) by (intros a0 b0 k Hk; unfold mixed; destruct (Nat.ltb_spec k n); [reflexivity|lia]).
    assert (Q : forall i, i < n -> Sum n (fun k => get (build A n n (fun i j => if Nat.eqb i j then get t i j -. #1 else get t i j)) i k *. y k)
       = Sum n (fun k => get t i k *. mixed n y x k) -. mixed n y x i).
    { intros i Hi. rewrite (Sum_at n _ i Hi), (Sum_at n (fun k => get t i k *. mixed n y x k) i Hi). rewrite get_build by assumption. rewrite Nat.eqb_refl.
      rewrite !Mx by exact Hi.
      rewrite (Sum_ext n (fun k => if Nat.eqb k i then #0 else get (build _ _ _ _) i k *. y k) (fun k => if Nat.eqb k i then #0 else get t i k *. mixed n y x k)).
      - ring.
      - intros k Hk. destruct (Nat.eqb_spec k i); [reflexivity|]. rewrite get_build, Mx by assumption. destruct (Nat.eqb_spec i k); [congruence|reflexivity]. }
    unfold sends. split; intros H i Hi; specialize (H i Hi).
    - rewrite (Q i Hi), H. apply Mx. exact Hi.
    - rewrite <- (Q i Hi), H. symmetry. apply Mx. exact Hi. }
  rewrite <- S0, <- S1. exact Sp.
Qed.
Lemma inv_left n a b : M_inv_1 A n a = Some b -> product_one A n b a.
Proof.
  intros H i j Hi Hj. pose proof (inv_spec n a b H (fun k => if Nat.eqb k j then #1 else #0) (fun i => get a i j)) as (K & _).
  rewrite K; [reflexivity| |exact Hi].
  intros l Hl. rewrite (Sum_one n _ j Hj); [rewrite Nat.eqb_refl; ring|]. intros k Hk N. destruct (Nat.eqb_spec k j); [contradiction|]. ring.
Qed.
Lemma inv_right n a b : M_inv_1 A n a = Some b -> product_one A n a b.
Proof.
  intros H i j Hi Hj. pose proof (inv_spec n a b H (fun i => get b i j) (fun k => if Nat.eqb k j then #1 else #0)) as (_ & K).
  rewrite K; [reflexivity| |exact Hi].
  intros l Hl. rewrite (Sum_one n _ j Hj); [rewrite Nat.eqb_refl; ring|]. intros k Hk N. destruct (Nat.eqb_spec k j); [contradiction|]. ring.
Qed.

(** No inverse: a zero pivot. *)
Lemma inv_steps_stuck n t : forall q, inv_steps A n (seq 0 q) t = None ->
  exists m t1, m < q /\ inv_steps A n (seq 0 m) t = Some t1 /\ get t1 m m -. #1 = #0.
Proof.
  assert (App : forall l m t, inv_steps A n (l ++ m) t = match inv_steps A n l t with Some t => inv_steps A n m t | None => None end).
  { induction l as [|r l IH]; intros m t0; [reflexivity|]. cbn. destruct (inv_step A n r t0); [apply IH|reflexivity]. }
  induction q as [|q IH]; intros H; [discriminate|]. rewrite seq_S, App in H. cbn [Nat.add] in H.
  destruct (inv_steps A n (seq 0 q) t) as [t1|] eqn:E.
  - exists q, t1. split; [lia|]. split; [exact E|]. cbn in H. unfold inv_step in H. destruct (eq A (get t1 q q -. #1) #0) eqn:Z; [|discriminate].
    apply (fl_eq A FL). exact Z.
  - destruct (IH eq_refl) as (m & t1 & Hm & K). exists m, t1. split; [lia|exact K].
Qed.
Lemma inv_none n a : M_inv_1 A n a = None <-> exists m, 0 < m <= n /\ singular A m a.
Proof.
  unfold M_inv_1. fold (plus_one n a). split.
  - intros H. destruct (inv_steps A n (seq 0 n) (plus_one n a)) as [t|] eqn:E; [discriminate|].
    destruct (inv_steps_stuck n _ n E) as (q & t & Hq & Es & P). exists (S q). split; [lia|].
    set (u := fun k => if Nat.eqb k q then ~. #1 else #0). set (v := fun i => Sum n (fun k => get t i k *. u k) -. u i).
    set (x := fun k => if Nat.ltb k q then v k else if Nat.eqb k q then #1 else #0). set (y := fun k => if Nat.ltb k q then #0 else ~. v k).
    assert (Hs : sends n t (mixed (0 + q) y x) (mixed (0 + q) x y)).
    { cbn [Nat.add]. apply sends_ext with (u := u) (v := v).
      - intros k Hk. unfold mixed, y, x, u. destruct (Nat.ltb_spec k q), (Nat.eqb_spec k q); try lia; try ring; reflexivity.
      - intros k Hk. unfold mixed, x, y. destruct (Nat.ltb_spec k q); [reflexivity|ring].
      - intros i Hi. reflexivity. }
    apply (inv_steps_spec n q 0 _ t ltac:(lia) Es) in Hs. rewrite sends_start in Hs.
    assert (Sx : forall i, i < n -> Sum (S q) (fun k => get a i k *. x k) = y i).
    { intros i Hi. rewrite <- (Hs i Hi). replace n with (S q + (n - S q)) by lia. rewrite Sum_split.
      rewrite (Sum_zero (n - S q)); [ring|]. intros k Hk. unfold x. destruct (Nat.ltb_spec (S q + k) q), (Nat.eqb_spec (S q + k) q); try lia. ring. }
    assert (Nx : forall k, k < S q -> nth k (map x (seq 0 (S q))) #0 = x k) by (intros k Hk; apply nth_seq_map; exact Hk).
    exists (map x (seq 0 (S q))). split; [rewrite map_length, seq_length; reflexivity|]. split.
    + intros i Hi. unfold row_times. rewrite (Sum_ext (S q) _ (fun k => get a i k *. x k)) by (intros k Hk; rewrite (Nx k Hk); reflexivity).
      rewrite Sx by lia. unfold y. destruct (Nat.ltb_spec i q); [reflexivity|]. replace i with q by lia. unfold v.
      rewrite (Sum_one n _ q Hq) by (intros k Hk N; unfold u; destruct (Nat.eqb_spec k q); [contradiction|ring]).
      unfold u. rewrite Nat.eqb_refl. transitivity (get t q q -. #1); [ring|exact P].
    + exists q. split; [lia|]. rewrite (Nx q ltac:(lia)). unfold x. rewrite Nat.ltb_irrefl, Nat.eqb_refl. exact one_zero.
  - intros (m & Hm & l & Ll & Zl & k0 & Hk0 & Nk). destruct (inv_steps A n (seq 0 n) (plus_one n a)) as [t|] eqn:E; [exfalso|reflexivity].
    replace n with (m + (n - m)) in E at 2 by lia. rewrite seq_app in E.
    assert (App : forall l1 l2 t, inv_steps A n (l1 ++ l2) t = match inv_steps A n l1 t with Some t => inv_steps A n l2 t | None => None end).
    { induction l1 as [|r l1 IH]; intros l2 t0; [reflexivity|]. cbn. destruct (inv_step A n r t0); [apply IH|reflexivity]. }
    rewrite App in E. destruct (inv_steps A n (seq 0 m) (plus_one n a)) as [t1|] eqn:E1; [|discriminate].
    set (x := fun k => nth k l #0). set (y := fun i => Sum n (fun k => get a i k *. x k)).
    assert (Hs : sends n (plus_one n a) (mixed 0 y x) (mixed 0 x y)) by (apply sends_start; reflexivity).
    apply (inv_steps_spec n m 0 _ t1 ltac:(lia) E1) in Hs. cbn [Nat.add] in Hs.
    assert (X0 : forall k, m <= k -> x k = #0) by (intros k Hk; apply nth_overflow; lia).
    assert (Y0 : forall i, i < m -> y i = #0).
    { intros i Hi. unfold y. replace n with (m + (n - m)) by lia. rewrite Sum_split, (Sum_zero (n - m)) by (intros k Hk; rewrite X0 by lia; ring).
      pose proof (Zl i Hi) as Z. unfold row_times in Z. fold x in Z. unfold x. rewrite Z. ring. }
    assert (M0 : forall k, k < n -> mixed m y x k = #0) by (intros k Hk; unfold mixed; destruct (Nat.ltb_spec k m); [apply Y0; assumption|rewrite X0 by lia; ring]).
    specialize (Hs k0 ltac:(lia)). rewrite (M0 k0) in Hs by lia. rewrite (Sum_zero n) in Hs by (intros k Hk; rewrite (M0 k Hk); ring).
    apply Nk. change (x k0 = #0). transitivity (mixed m x y k0); [unfold mixed; destruct (Nat.ltb_spec k0 m); [reflexivity|lia]|]. rewrite <- Hs. ring.
Qed.

(** * Linear systems *)

(** x is a solution (z = 1), or is sent to zero (z = 0). *)
Definition holds (n : nat) (s : system A) (z : F) (x : nat -> F) : Prop := forall i, i < n -> Sum n (fun k => get (s_a s) i k *. x k) = z *. at_b s i.
(** The columns before r are eliminated. *)
Definition upper (n r : nat) (s : system A) : Prop :=
  (forall j i, j < r -> j < i < n -> get (s_a s) i j = #0) /\ (forall j, j < r -> j < n -> get (s_a s) j j <> #0).
Definition clear_at (n r : nat) (s : system A) : Prop := forall i, r <= i < n -> ZERO A (get (s_a s) i r) = true -> get (s_a s) i r = #0.
Lemma zero_false x : ZERO A x = false -> x <> #0.
Proof. intros H ->. rewrite (fl_zero A FL) in H. discriminate. Qed.
Lemma at_b_map n (f : nat -> F) a i : i < n -> at_b (mkSys a (map f (seq 0 n))) i = f i.
Proof. intros H. unfold at_b. cbn [s_b]. apply nth_seq_map. exact H. Qed.
Lemma pivot_spec n r s s' : r < n -> upper n r s -> clear_at n r s -> M_gel_pivot A n r s = Some s' ->
  upper n r s' /\ clear_at n r s' /\ ZERO A (get (s_a s') r r) = false /\ forall z x, holds n s z x <-> holds n s' z x.
Proof.
  intros Hr (U1 & U2) Cl H. unfold M_gel_pivot in H. destruct (find _ _) as [k|] eqn:Ef; [|discriminate].
  apply find_some in Ef. destruct Ef as (Hk & Nz). apply in_seq in Hk. apply negb_true_iff in Nz.
  set (other i := if Nat.eqb i r then k else if Nat.eqb i k then r else i).
  assert (Es : s' = mkSys (build A n n (fun i j => get (s_a s) (other i) j)) (map (fun i => at_b s (other i)) (seq 0 n))) by (injection H as <-; reflexivity). subst s'. clear H.
  assert (O1 : forall i, i < n -> other i < n) by (intros i Hi; unfold other; destruct (Nat.eqb_spec i r), (Nat.eqb_spec i k); lia).
  assert (O2 : forall i, r <= i < n -> r <= other i < n) by (intros i Hi; unfold other; destruct (Nat.eqb_spec i r), (Nat.eqb_spec i k); lia).
  assert (O3 : forall i, i < r -> other i = i) by (intros i Hi; unfold other; destruct (Nat.eqb_spec i r), (Nat.eqb_spec i k); lia).
  assert (O4 : forall i, other (other i) = i).
  { intros i. unfold other. destruct (Nat.eqb_spec i r) as [->|]; [|destruct (Nat.eqb_spec i k) as [->|]].
    - destruct (Nat.eqb_spec k r) as [->|]; [reflexivity|]. rewrite Nat.eqb_refl. reflexivity.
    - rewrite Nat.eqb_refl. reflexivity.
    - destruct (Nat.eqb_spec i r); [contradiction|]. destruct (Nat.eqb_spec i k); [contradiction|reflexivity]. }
  assert (Or : other r = k) by (unfold other; rewrite Nat.eqb_refl; reflexivity).
  clearbody other. split; [split|split; [|split; [|intros z x; split]]].
  - intros j i Hj Hi. cbn [s_a]. rewrite get_build by lia. apply U1; [exact Hj|].
    destruct (Nat.lt_ge_cases i r) as [C|C]; [rewrite (O3 i C); exact Hi|]. pose proof (O2 i ltac:(lia)). lia.
  - intros j Hj Hn. cbn [s_a]. rewrite get_build by assumption. rewrite (O3 j Hj). apply U2; assumption.
  - intros i Hi. cbn [s_a]. rewrite get_build by lia. apply Cl. apply O2. exact Hi.
  - cbn [s_a]. rewrite get_build by assumption. rewrite Or. exact Nz.
  - intros H i Hi. cbn [s_a]. rewrite at_b_map by exact Hi. rewrite <- (H (other i) (O1 i Hi)). apply Sum_ext. intros j Hj. rewrite get_build by assumption. reflexivity.
  - intros H i Hi. specialize (H (other i) (O1 i Hi)). cbn [s_a] in H. rewrite at_b_map in H by (apply O1; exact Hi). rewrite O4 in H.
    rewrite <- H. apply Sum_ext. intros j Hj. rewrite get_build by (auto; apply O1; exact Hi). rewrite O4. reflexivity.
Qed.
Lemma step_spec n r s s' : r < n -> upper n r s -> clear_at n r s -> gel_step A n r s = Some s' ->
  upper n (S r) s' /\ forall z x, holds n s z x <-> holds n s' z x.
Proof.
  intros Hr U Cl H. unfold gel_step in H.
  assert (K : exists s1, (if ZERO A (get (s_a s) r r) then M_gel_pivot A n r s else Some s) = Some s1
    /\ upper n r s1 /\ clear_at n r s1 /\ ZERO A (get (s_a s1) r r) = false /\ forall z x, holds n s z x <-> holds n s1 z x).
  { destruct (ZERO A (get (s_a s) r r)) eqn:Z.
    - destruct (M_gel_pivot A n r s) as [s1|] eqn:P; [|discriminate]. exists s1. split; [reflexivity|]. apply pivot_spec; assumption.
    - exists s. split; [reflexivity|]. split; [exact U|]. split; [exact Cl|]. split; [exact Z|]. reflexivity. }
  destruct K as (s1 & E1 & (U1 & U2) & Cl1 & Z1 & Eq1). rewrite E1 in H.
  set (mult i := ~. get (s_a s1) i r /. get (s_a s1) r r). set (touched i := Nat.ltb r i && negb (ZERO A (get (s_a s1) i r))).
  assert (Es : s' = mkSys (build A n n (fun i j => if touched i then get (s_a s1) i j +. mult i *. get (s_a s1) r j else get (s_a s1) i j))
    (map (fun i => if touched i then at_b s1 i +. mult i *. at_b s1 r else at_b s1 i) (seq 0 n))) by (injection H as <-; reflexivity). subst s'. clear H.
  pose proof (zero_false _ Z1) as Nz.
  assert (T : forall i, i <= r -> touched i = false) by (intros i Hi; unfold touched; destruct (Nat.ltb_spec r i); [lia|reflexivity]).
  split; [split|].
  - intros j i Hj Hi. cbn [s_a]. rewrite get_build by lia. destruct (Nat.eq_dec j r) as [->|N].
    + destruct (touched i) eqn:Ti.
      * unfold mult. field. exact Nz.
      * apply Cl1; [lia|]. unfold touched in Ti. destruct (Nat.ltb_spec r i); [|lia]. cbn in Ti. apply negb_false_iff in Ti. exact Ti.
    + rewrite (U1 j i) by lia. destruct (touched i) eqn:Ti; [|reflexivity]. rewrite (U1 j r) by lia. ring.
  - intros j Hj Hn. cbn [s_a]. rewrite get_build by assumption. rewrite (T j) by lia. destruct (Nat.eq_dec j r) as [->|N]; [exact Nz|]. apply U2; lia.
  - intros z x. rewrite Eq1. clear Eq1 E1.
    assert (R : forall i, i < n -> Sum n (fun k => get (build A n n (fun i j => if touched i then get (s_a s1) i j +. mult i *. get (s_a s1) r j else get (s_a s1) i j)) i k *. x k)
      = Sum n (fun k => get (s_a s1) i k *. x k) +. (if touched i then mult i *. Sum n (fun k => get (s_a s1) r k *. x k) else #0)).
    { intros i Hi. destruct (touched i) eqn:Ti.
      - rewrite <- Sum_scale, <- Sum_add. apply Sum_ext. intros k Hk. rewrite get_build by assumption. rewrite Ti. ring.
      - rewrite (Sum_ext n _ (fun k => get (s_a s1) i k *. x k)); [ring|]. intros k Hk. rewrite get_build by assumption. rewrite Ti. reflexivity. }
    split; intros H i Hi.
    + cbn [s_a]. rewrite (R i Hi), at_b_map by exact Hi. rewrite (H i Hi), (H r Hr). destruct (touched i); ring.
    + pose proof (H r Hr) as Hrr. cbn [s_a] in Hrr. rewrite (R r Hr), at_b_map, (T r) in Hrr by lia.
      specialize (H i Hi). cbn [s_a] in H. rewrite (R i Hi), at_b_map in H by exact Hi. destruct (touched i).
      * transitivity (Sum n (fun k => get (s_a s1) i k *. x k) +. mult i *. Sum n (fun k => get (s_a s1) r k *. x k) -. mult i *. (Sum n (fun k => get (s_a s1) r k *. x k) +. #0)); [ring|].
        rewrite H, Hrr. ring.
      * rewrite <- H. ring.
Qed.
Lemma gel_steps_app n l : forall m s, gel_steps A n (l ++ m) s = match gel_steps A n l s with Some s => gel_steps A n m s | None => None end.
Proof. induction l as [|r l IH]; intros m s; [reflexivity|]. cbn. destruct (gel_step A n r s); [apply IH|reflexivity]. Qed.
Lemma steps_spec n a b : no_tiny A n a b -> forall r s, r < n -> gel_steps A n (seq 0 r) (mkSys a b) = Some s ->
  upper n r s /\ forall z x, holds n (mkSys a b) z x <-> holds n s z x.
Proof.
  intros NT. induction r as [|r IH]; intros s Hr H.
  - cbn in H. injection H as <-. split; [split; intros; lia|reflexivity].
  - rewrite seq_S, gel_steps_app in H. cbn [Nat.add] in H. destruct (gel_steps A n (seq 0 r) (mkSys a b)) as [s1|] eqn:E; [|discriminate].
    cbn in H. destruct (gel_step A n r s1) as [s2|] eqn:E2; [|discriminate]. injection H as <-.
    destruct (IH s1 ltac:(lia) eq_refl) as (U & Eq).
    destruct (step_spec n r s1 s2 ltac:(lia) U (NT r s1 ltac:(lia) E) E2) as (U' & Eq'). split; [exact U'|]. intros z x. rewrite Eq. apply Eq'.
Qed.

Lemma Sum_head n f : Sum (S n) f = f 0 +. Sum n (fun k => f (S k)).
Proof. change (S n) with (1 + n). rewrite (Sum_split 1 n f). cbn. ring. Qed.
Lemma fold_comb (g : nat -> F) x : forall m z, fold_left (fun z '(k, v) => z +. g k *. v) (combine (seq m (length x)) x) z
  = z +. Sum (length x) (fun k => g (m + k) *. nth k x #0).
Proof.
  induction x as [|v x IH]; intros m z; [cbn; ring|]. cbn [length seq combine fold_left]. rewrite IH, Sum_head. cbn [nth].
  rewrite Nat.add_0_r. rewrite (Sum_ext (length x) (fun k => g (m + S k) *. nth k x #0) (fun k => g (S m + k) *. nth k x #0)); [ring|].
  intros k _. rewrite Nat.add_succ_r. reflexivity.
Qed.
Lemma bw_spec n s : (forall i j, j < i < n -> get (s_a s) i j = #0) -> (forall i, i < n -> get (s_a s) i i <> #0) ->
  forall i x, i <= n -> length x = n - i ->
  exists y, bw_sub A n i s x = y /\ length y = n /\ (forall k, i <= k -> nth k y #0 = nth (k - i) x #0)
  /\ forall l, l < i -> Sum n (fun k => get (s_a s) l k *. nth k y #0) = at_b s l.
Proof.
  intros Lo Di. induction i as [|i IH]; intros x Hi Lx.
  - exists x. split; [reflexivity|]. split; [lia|]. split; [intros k _; rewrite Nat.sub_0_r; reflexivity|]. intros l Hl. lia.
  - cbn [bw_sub]. set (v := (at_b s i -. _) /. _). destruct (IH (v :: x) ltac:(lia) ltac:(cbn; lia)) as (y & E & Ly & Ny & Ry).
    exists y. split; [exact E|]. split; [exact Ly|]. split.
    + intros k Hk. rewrite Ny by lia. replace (k - i) with (S (k - S i)) by lia. reflexivity.
    + intros l Hl. destruct (Nat.eq_dec l i) as [->|N]; [|apply Ry; lia].
      replace n with (i + S (length x)) by lia. rewrite Sum_split, Sum_head.
      rewrite (Sum_zero i) by (intros k Hk; rewrite (Lo i k) by lia; ring).
      rewrite Nat.add_0_r. rewrite (Sum_ext (length x) _ (fun k => get (s_a s) i (S i + k) *. nth k x #0)).
      2:{ intros k Hk. replace (i + S k) with (S i + k) by lia. rewrite Ny by lia. replace (S i + k - i) with (S k) by lia. reflexivity. }
      rewrite (Ny i) by lia. rewrite Nat.sub_diag. cbn [nth].
      assert (Ev : v = (at_b s i -. Sum (length x) (fun k => get (s_a s) i (S i + k) *. nth k x #0)) /. get (s_a s) i i).
      { unfold v. rewrite <- Lx, fold_comb. f_equal. ring. }
      rewrite Ev. field. apply Di. lia.
Qed.
Lemma M_solve_ok n a b x : no_tiny A n a b -> length b = n -> M_solve A n a b = Some x -> solution A n a x b.
Proof.
  intros NT Lb H. unfold M_solve in H. destruct n as [|[|n]]; [discriminate| |].
  - destruct (ZERO A (get a 0 0)) eqn:Z; [discriminate|]. injection H as <-. split; [reflexivity|]. intros i Hi. replace i with 0 by lia.
    unfold row_times. cbn. unfold at_b. cbn [s_b]. pose proof (zero_false _ Z). field. assumption.
  - set (N := S (S n)) in * . unfold M_gel_ut in H. destruct (gel_steps A N (seq 0 (N - 1)) (mkSys a b)) as [s|] eqn:E; [|discriminate].
    destruct (ZERO A (get (s_a s) (N - 1) (N - 1))) eqn:Z; [discriminate|].
    destruct (steps_spec N a b NT (N - 1) s ltac:(lia) E) as ((U1 & U2) & Eq).
    destruct (bw_spec N s) with (i := N) (x := @nil F) as (y & Ey & Ly & _ & Ry).
    + intros i j Hi. apply U1; lia.
    + intros i Hi. destruct (Nat.eq_dec i (N - 1)) as [->|]; [exact (zero_false _ Z)|]. apply U2; lia.
    + lia.
    + cbn; lia.
    + assert (Hy : y = x) by (rewrite <- Ey; congruence). subst x. split; [exact Ly|].
      assert (Hs : holds N s #1 (fun k => nth k y #0)) by (intros i Hi; rewrite (Ry i Hi); ring).
      apply Eq in Hs. intros i Hi. unfold row_times. pose proof (Hs i Hi) as E'. cbn [s_a] in E'. rewrite E'. unfold at_b. cbn [s_b]. ring.
Qed.
(** A column without a pivot: the matrix is singular. *)
Lemma stuck_singular n a b r s : no_tiny A n a b -> r < n -> gel_steps A n (seq 0 r) (mkSys a b) = Some s ->
  (forall i, r <= i < n -> get (s_a s) i r = #0) -> singular A n a.
Proof.
  intros NT Hr E Zr. destruct (steps_spec n a b NT r s Hr E) as ((U1 & U2) & Eq).
  destruct (bw_spec r (mkSys (s_a s) (map (fun i => ~. get (s_a s) i r) (seq 0 r)))) with (i := r) (x := @nil F) as (y & _ & Ly & _ & Ry).
  - cbn [s_a]. intros i j Hi. apply U1; lia.
  - cbn [s_a]. intros i Hi. apply U2; lia.
  - lia.
  - cbn; lia.
  - set (x := y ++ #1 :: repeat #0 (n - S r)).
    assert (Lx : length x = n) by (unfold x; rewrite app_length; cbn; rewrite repeat_length, Ly; lia).
    assert (X1 : forall k, k < r -> nth k x #0 = nth k y #0) by (intros k Hk; unfold x; apply app_nth1; lia).
    assert (X2 : nth r x #0 = #1) by (unfold x; rewrite app_nth2, Ly, Nat.sub_diag by lia; reflexivity).
    assert (X3 : forall k, r < k -> nth k x #0 = #0).
    { intros k Hk. unfold x. rewrite app_nth2, Ly by lia. replace (k - r) with (S (k - S r)) by lia. cbn. apply nth_repeat. }
    exists x. split; [exact Lx|]. split; [|exists r; split; [exact Hr|rewrite X2; exact one_zero]].
    assert (Hs : holds n s #0 (fun k => nth k x #0)).
    { intros i Hi. transitivity #0; [|ring]. replace n with (r + S (n - S r)) by lia. rewrite Sum_split, Sum_head, Nat.add_0_r, X2.
      rewrite (Sum_zero (n - S r)) by (intros k Hk; rewrite X3 by lia; ring).
      rewrite (Sum_ext r _ (fun k => get (s_a s) i k *. nth k y #0)) by (intros k Hk; rewrite X1 by exact Hk; reflexivity).
      destruct (Nat.lt_ge_cases i r) as [C|C].
      - specialize (Ry i C). cbn [s_a] in Ry. rewrite Ry, at_b_map by exact C. ring.
      - rewrite (Zr i) by lia. rewrite (Sum_zero r) by (intros k Hk; rewrite (U1 k i) by lia; ring). ring. }
    apply Eq in Hs. intros i Hi. unfold row_times. pose proof (Hs i Hi) as E'. cbn [s_a] in E'. rewrite E'. ring.
Qed.
Lemma steps_stuck n a b : forall r, gel_steps A n (seq 0 r) (mkSys a b) = None ->
  exists q s, q < r /\ gel_steps A n (seq 0 q) (mkSys a b) = Some s /\ gel_step A n q s = None.
Proof.
  induction r as [|r IH]; intros H; [discriminate|]. rewrite seq_S, gel_steps_app in H. cbn [Nat.add] in H.
  destruct (gel_steps A n (seq 0 r) (mkSys a b)) as [s|] eqn:E.
  - exists r, s. split; [lia|]. split; [exact E|]. cbn in H. destruct (gel_step A n r s); [discriminate|reflexivity].
  - destruct (IH eq_refl) as (q & s & Hq & K). exists q, s. split; [lia|exact K].
Qed.
Lemma M_solve_none n a b : n <> 0 -> no_tiny A n a b -> length b = n -> M_solve A n a b = None -> singular A n a.
Proof.
  intros N0 NT Lb H. unfold M_solve in H. destruct n as [|[|n]]; [contradiction| |].
  - destruct (ZERO A (get a 0 0)) eqn:Z; [|discriminate]. apply (stuck_singular 1 a b 0 (mkSys a b) NT ltac:(lia) eq_refl).
    intros i Hi. replace i with 0 by lia. apply (NT 0 (mkSys a b) ltac:(lia) eq_refl 0 ltac:(lia)). exact Z.
  - set (N := S (S n)) in * . unfold M_gel_ut in H. destruct (gel_steps A N (seq 0 (N - 1)) (mkSys a b)) as [s|] eqn:E.
    + destruct (ZERO A (get (s_a s) (N - 1) (N - 1))) eqn:Z; [|discriminate]. apply (stuck_singular N a b (N - 1) s NT ltac:(lia) E).
      intros i Hi. replace i with (N - 1) by lia. apply (NT (N - 1) s ltac:(lia) E (N - 1) ltac:(lia)). exact Z.
    + destruct (steps_stuck N a b (N - 1) E) as (q & s & Hq & Eq & K). apply (stuck_singular N a b q s NT ltac:(lia) Eq).
      intros i Hi. apply (NT q s ltac:(lia) Eq i Hi). unfold gel_step in K.
      destruct (ZERO A (get (s_a s) q q)) eqn:Z; [|discriminate].
      unfold M_gel_pivot in K. destruct (find _ _) as [k|] eqn:Ef; [discriminate|].
      assert (Hin : In i (seq q (N - q))) by (apply in_seq; lia). pose proof (find_none _ _ Ef i Hin) as Hz. cbn in Hz. apply negb_false_iff in Hz. exact Hz.
Qed.
(** A system that is solved is not singular. *)
Lemma upper_zero n s : (forall i j, j < i < n -> get (s_a s) i j = #0) -> (forall i, i < n -> get (s_a s) i i <> #0) ->
  forall x, holds n s #0 x -> forall j k, n - j <= k -> k < n -> x k = #0.
Proof.
  intros Lo Di x H. induction j as [|j IH]; intros k Hk Hn; [lia|]. destruct (Nat.lt_ge_cases k (n - j)) as [C|C]; [|apply IH; lia].
  pose proof (H k Hn) as E. rewrite (Sum_one n _ k Hn) in E.
  - transitivity (#1 /. get (s_a s) k k *. (get (s_a s) k k *. x k)); [field; apply Di; exact Hn|]. rewrite E. field. apply Di. exact Hn.
  - intros i Hi N. destruct (Nat.lt_ge_cases i k) as [L|L]; [rewrite (Lo k i) by lia; ring|]. rewrite (IH i) by lia. ring.
Qed.
Lemma M_solve_some n a b x : no_tiny A n a b -> M_solve A n a b = Some x -> ~ singular A n a.
Proof.
  intros NT H (l & Ll & Zl & k & Hk & Nk). unfold M_solve in H. destruct n as [|[|n]]; [discriminate| |].
  - destruct (ZERO A (get a 0 0)) eqn:Z; [discriminate|]. pose proof (zero_false _ Z) as Nz. specialize (Zl 0 ltac:(lia)). unfold row_times in Zl. cbn in Zl.
    apply Nk. replace k with 0 by lia. transitivity ((#0 +. get a 0 0 *. nth 0 l #0) /. get a 0 0); [field; exact Nz|]. rewrite Zl. field. exact Nz.
  - set (N := S (S n)) in * . unfold M_gel_ut in H. destruct (gel_steps A N (seq 0 (N - 1)) (mkSys a b)) as [s|] eqn:E; [|discriminate].
    destruct (ZERO A (get (s_a s) (N - 1) (N - 1))) eqn:Z; [discriminate|].
    destruct (steps_spec N a b NT (N - 1) s ltac:(lia) E) as ((U1 & U2) & Eq). apply Nk.
    apply (upper_zero N s) with (x := fun k => nth k l #0) (j := N); try lia.
    + intros i j Hi. apply U1; lia.
    + intros i Hi. destruct (Nat.eq_dec i (N - 1)) as [->|]; [exact (zero_false _ Z)|]. apply U2; lia.
    + apply Eq. intros i Hi. transitivity #0; [apply Zl; exact Hi|ring].
Qed.
End Field.

(** The rational numbers. *)
Lemma exactly_field : field_like exactly.
Proof.
  split.
  - pose proof Qcft as [R O D I]. split.
    + exact R.
    + exact O.
    + intros p q. cbn. unfold Qcdiv. rewrite Qcmult_1_l. reflexivity.
    + intros p N. cbn. unfold Qcdiv. rewrite Qcmult_1_l. apply I. exact N.
  - intros x y. cbn. destruct (Qc_eq_dec x y); split; congruence.
  - vm_compute. reflexivity.
Qed.
