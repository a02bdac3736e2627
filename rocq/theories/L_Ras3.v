(** The RAS command: reading the elements and the sums, writing the result. *)
From Coq Require Import ZArith Ascii List Bool Lia Reals Lra ZifyBool.
From Verif Require Import M_Base M_Lex M_Kdb M_Time M_Exec M_Real M_Matrix M_Ras S_Matrix S_Hodrick S_Ras L_Matrix L_Estim2 L_Estim3 L_Names L_Kdb L_Kdb2 L_Hodrick L_Ras.
Import ListNotations.
Open Scope R_scope.

Lemma collect_some {X Y} (f : X -> res (option Y)) : forall l ys, collect f l = Ok (Some ys) ->
  length ys = length l /\ forall k dx dy, (k < length l)%nat -> f (nth k l dx) = Ok (Some (nth k ys dy)).
Proof.
  induction l as [|x l IH]; intros ys E; cbn [collect] in E.
  - injection E as <-. split; [reflexivity|]. intros k dx dy Hk. cbn in Hk. lia.
  - destruct (f x) as [y| |] eqn:Ex; cbn [rbind] in E; try discriminate. destruct y as [y|]; [|discriminate]. destruct (collect f l) as [r| |] eqn:Er; cbn [rbind] in E; try discriminate.
    destruct r as [r|]; [|discriminate]. injection E as <-. destruct (IH r eq_refl) as (L & P). split; [cbn; lia|]. intros k dx dy Hk. destruct k as [|k]; [exact Ex|]. cbn [nth]. apply P. cbn in Hk. lia.
Qed.
Lemma find_set (ws : list (str * list R)) nm t (v : R) name : find name (RasSetVar reals ws nm t v) = if str_eqb name nm then option_map (upd_list (Z.to_nat t) (fun _ => v)) (find name ws) else find name ws.
Proof.
  unfold RasSetVar. induction ws as [|(k, l) ws IH]; cbn [map find fst snd]; [destruct (str_eqb name nm); reflexivity|].
  destruct (str_eqb k nm) eqn:E1; cbn [find fst snd].
  - apply str_eqb_iff in E1. subst k. destruct (str_eqb name nm) eqn:E2; [reflexivity|exact IH].
  - destruct (str_eqb name k) eqn:E2; [|exact IH]. apply str_eqb_iff in E2. subst k. rewrite E1. reflexivity.
Qed.
Definition clean (v : R) : R := if r_lt (Rabs v) (1 / IZR (10 ^ 10)) then 0 else v.
Lemma ten10 : 1 / IZR (10 ^ 10) = / 10 ^ 10.
Proof. assert (E : 10 ^ 10 = IZR (10 ^ 10)) by (rewrite (pow_IZR 10 10); reflexivity). rewrite <- E. unfold Rdiv. ring. Qed.
Lemma clean_clear v : clear v -> clean v = v.
Proof.
  unfold clear, clean. rewrite ten10. intros C. destruct (r_lt (Rabs v) (/ 10 ^ 10)) eqn:L; [|reflexivity]. apply r_lt_true in L. destruct C as [->|C]; [reflexivity|lra].
Qed.
Lemma clean_num v : r_num (clean v) = r_num v.
Proof.
  unfold clean. destruct (r_lt _ _) eqn:L; [|reflexivity]. apply r_lt_true in L. rewrite ten10 in L. unfold r_num.
  assert (0 < 10 ^ 37) by (apply pow_lt; lra). assert (P : 0 < 10 ^ 10) by (apply pow_lt; lra).
  assert (Q : / 10 ^ 10 <= 10 ^ 37). { assert (/ 10 ^ 10 <= 1). { rewrite <- Rinv_1. apply Rinv_le_contravar; [lra|]. apply pow_R1_Rle. lra. } assert (1 <= 10 ^ 37) by (apply pow_R1_Rle; lra). lra. }
  destruct (Rle_dec _ 0) as [|N]; [|lra]. destruct (Rle_dec _ v) as [|N]; [reflexivity|exfalso]. apply N. pose proof (Rle_abs (- v)) as K. rewrite Rabs_Ropp in K. lra.
Qed.
(** [RasGetVar]. *)
Lemma get_value (ws : list (str * list R)) nb name t v : RasGetVar reals ws nb name t = Ok v -> v = clean (value ws name t) /\ (find name ws <> None -> (0 <= t < nb)%Z).
Proof.
  unfold RasGetVar, value. change (@find (list (F reals))) with (@find (list R)). destruct (@find (list R) name ws) as [l|].
  - destruct ((t <? 0)%Z || (nb <=? t)%Z) eqn:R; cbn [rbind]; [intros E; discriminate E|]. intros E. injection E as <-. split; [reflexivity|]. intros _. lia.
  - cbn [rbind]. intros E. injection E as <-. split; [reflexivity|]. intros K. contradiction.
Qed.
Lemma get_same (ws ws' : list (str * list R)) nb name t : find name ws = find name ws' -> RasGetVar reals ws nb name t = RasGetVar reals ws' nb name t.
Proof. intros E. unfold RasGetVar. change (@find (list (F reals))) with (@find (list R)). rewrite E. reflexivity. Qed.

Lemma NoDup_app_intro {A} (a b : list A) : NoDup a -> NoDup b -> (forall x, In x a -> In x b -> False) -> NoDup (a ++ b).
Proof.
  intros Da Db H. induction Da as [|x a Nx Da IH]; [exact Db|]. cbn. constructor; [|apply IH; intros y Hy; apply H; right; exact Hy].
  intros K. apply in_app_or in K. destruct K as [K|K]; [contradiction|]. apply (H x); [left; reflexivity|exact K].
Qed.

Lemma in_dec_cells (xs ys : list str) (nm : nat -> nat -> str) name : (exists i j, (i < length xs)%nat /\ (j < length ys)%nat /\ nm i j = name) \/ forall i j, (i < length xs)%nat -> (j < length ys)%nat -> nm i j <> name.
Proof.
  destruct (existsb (fun ij => str_eqb (nm (fst ij) (snd ij)) name) (list_prod (seq 0 (length xs)) (seq 0 (length ys)))) eqn:E.
  - left. apply existsb_exists in E. destruct E as ((i, j) & Hin & E). apply in_prod_iff in Hin. rewrite !in_seq in Hin. apply str_eqb_iff in E. exists i, j. split; [lia|]. split; [lia|exact E].
  - right. intros i j Hi Hj K. assert (T : existsb (fun ij => str_eqb (nm (fst ij) (snd ij)) name) (list_prod (seq 0 (length xs)) (seq 0 (length ys))) = true); [|congruence].
    apply existsb_exists. exists (i, j). split; [apply in_prod_iff; rewrite !in_seq; lia|]. cbn [fst snd]. apply str_eqb_iff. exact K.
Qed.
Section Command.
Context (ws : list (str * list R)) (nb rt ct : Z) (pattern : str) (xs ys : list str) (xsum ysum : str) (maxit : Z) (eps : R).
Context (nm : nat -> nat -> str) (rn cn : nat -> str).
Notation n := (length xs). Notation m := (length ys).
Context (Hnm : forall i j, (i < n)%nat -> (j < m)%nat -> name_xy pattern (nth i xs []) (nth j ys []) = Ok (nm i j)).
Context (Hrn : forall i, (i < n)%nat -> name_yx pattern (nth i xs []) ysum = Ok (rn i)).
Context (Hcn : forall j, (j < m)%nat -> name_xy pattern xsum (nth j ys []) = Ok (cn j)).
Context (Inj : forall i j i' j', (i < n)%nat -> (j < m)%nat -> (i' < n)%nat -> (j' < m)%nat -> nm i j = nm i' j' -> i = i' /\ j = j').
Context (Wf : forall name l, find name ws = Some l -> length l = Z.to_nat nb).
Notation known_at i j := (known (value ws (nm i j) ct)).

Lemma elements_read es : read_elements reals ws nb pattern rt ct xs ys = Ok (Some es) -> forall i j, (i < n)%nat -> (j < m)%nat ->
  el reals es i j = (nm i j, clean (value ws (nm i j) rt), if known_at i j then Some (clean (value ws (nm i j) ct)) else None)
  /\ r_num (value ws (nm i j) rt) = true
  /\ (exists v, RasGetVar reals ws nb (nm i j) ct = Ok v /\ v = clean (value ws (nm i j) ct)) /\ (exists l, find (nm i j) ws = Some l) /\ (0 <= ct < nb)%Z.
Proof.
  intros E i j Hi Hj. unfold read_elements in E. apply collect_some in E. destruct E as (Le & P). pose proof (P i [] [] Hi) as Pi. cbn beta in Pi. apply collect_some in Pi. destruct Pi as (Lj & Q).
  pose proof (Q j [] (no_element reals) Hj) as K. cbn beta in K. unfold read_element in K. rewrite (Hnm i j Hi Hj) in K. cbn [rbind] in K.
  destruct (RasGetVar reals ws nb (nm i j) rt) as [v| |] eqn:Ev; cbn [rbind] in K; try discriminate. destruct (get_value _ _ _ _ _ Ev) as (Vv & _). change (num reals) with r_num in K.
  destruct (r_num v) eqn:Nv; unfold negb in K; [|discriminate]. destruct (RasGetVar reals ws nb (nm i j) ct) as [f| |] eqn:Ef; cbn [rbind] in K; try discriminate.
  destruct (get_value _ _ _ _ _ Ef) as (Vf & Rf). injection K as K. assert (Fd : exists l, find (nm i j) ws = Some l).
  { unfold value in Vv. destruct (find (nm i j) ws) as [l|]; [exists l; reflexivity|exfalso]. rewrite Vv, clean_num, r_num_na in Nv. discriminate. }
  split; [|split; [|split; [|split]]].
  - unfold el. change (element reals) with (str * R * option R)%type in *. rewrite <- K. rewrite Vf at 1. rewrite clean_num. unfold known. rewrite <- Vv, <- Vf. reflexivity.
  - rewrite <- clean_num, <- Vv. exact Nv.
  - exists f. split; [reflexivity|exact Vf].
  - exact Fd.
  - destruct Fd as (l & Fd). apply Rf. rewrite Fd. discriminate.
Qed.
Lemma controls_read names vs (nam : nat -> str) q : read_controls reals ws nb ct names = Ok (Some vs) -> length names = q -> (forall k, (k < q)%nat -> nth k names UB = Ok (nam k)) ->
  length vs = q /\ forall k, (k < q)%nat -> nth k vs 0 = clean (value ws (nam k) ct) /\ r_num (value ws (nam k) ct) = true.
Proof.
  intros E L N. apply collect_some in E. destruct E as (Lv & P). split; [change (F reals) with R in *; lia|]. intros k Hk. pose proof (P k UB 0 ltac:(lia)) as K. cbn beta in K. rewrite (N k Hk) in K. cbn [rbind] in K.
  destruct (RasGetVar reals ws nb (nam k) ct) as [v| |] eqn:Ev; cbn [rbind] in K; try discriminate. destruct (get_value _ _ _ _ _ Ev) as (Vv & _). change (num reals) with r_num in K.
  destruct (r_num v) eqn:Nv; [|discriminate]. injection K as K. change (nth k vs 0 = clean (value ws (nam k) ct) /\ r_num (value ws (nam k) ct) = true). split; [transitivity v; [symmetry; exact K|exact Vv]|].
  rewrite <- clean_num, <- Vv. exact Nv.
Qed.
Lemma less_known_at q (e : nat -> element reals) (f : nat -> R) control : (forall k, (k < q)%nat -> snd (e k) = if known (f k) then Some (f k) else None) ->
  @Logic.eq R (less_known reals q e control) (control - known_sum q f).
Proof.
  intros H. unfold less_known, known_sum. rewrite sum_to_eq. change (add reals) with Rplus. change (sub reals) with Rminus. change (ofZ reals 0) with 0.
  assert (K : @Logic.eq R (fold_left (fun (s : R) k => match e k with (_, _, Some f) => s - f | (_, _, None) => s end) (seq 0 q) 0) (- SumR q (fun k => if known (f k) then f k else 0))).
  { induction q as [|q IH]; [unfold SumR; cbn; ring|]. rewrite seq_S, fold_left_app. cbn [fold_left Nat.add]. rewrite IH by (intros; apply H; lia). rewrite sum_S.
    pose proof (H q ltac:(lia)) as Hq. destruct (e q) as ((s, v), o). cbn [snd] in Hq. rewrite Hq. destruct (known (f q)); ring. }
  etransitivity; [exact (f_equal (fun z : R => z + control) K)|ring].
Qed.
(** Writing. *)
Section Write.
Context (es : list (list (element reals))) (a : mat reals) (Hel : forall i j, (i < n)%nat -> (j < m)%nat -> fst (fst (el reals es i j)) = nm i j).
Context (Hget : forall i j, (i < n)%nat -> (j < m)%nat -> exists v, RasGetVar reals ws nb (nm i j) ct = Ok v /\ v = clean (value ws (nm i j) ct)).
Definition put_one (r : res (list (str * list R))) (ij : nat * nat) : res (list (str * list R)) :=
  do ws <- r;
  let name := fst (fst (el reals es (fst ij) (snd ij))) in
  do v <- RasGetVar reals ws nb name ct;
  Ok (if num reals v then ws else RasSetVar reals ws name ct (get a (fst ij) (snd ij))).
Definition after (l : list (nat * nat)) (name : str) (r : option (list R)) : Prop :=
  ((forall i j, In (i, j) l -> nm i j <> name) -> r = find name ws)
  /\ forall i j, In (i, j) l -> name = nm i j -> r = if known_at i j then find name ws else option_map (upd_list (Z.to_nat ct) (fun _ => get a i j)) (find name ws).
Lemma write_steps l : (forall i j, In (i, j) l -> (i < n)%nat /\ (j < m)%nat) -> NoDup l -> exists w, fold_left put_one l (Ok ws) = Ok w /\ forall name, after l name (find name w).
Proof.
  induction l as [|(i, j) l IH] using rev_ind; intros R D.
  - exists ws. split; [reflexivity|]. intros name. split; [reflexivity|intros ? ? []].
  - apply NoDup_remove in D. rewrite app_nil_r in D. destruct D as (D & Nin). destruct IH as (w & Ew & Aw); [intros; apply R; apply in_or_app; left; assumption|exact D|].
    destruct (R i j ltac:(apply in_or_app; right; left; reflexivity)) as (Hi & Hj).
    assert (Fw : find (nm i j) w = find (nm i j) ws).
    { apply (Aw (nm i j)). intros i' j' Hin E. destruct (R i' j' ltac:(apply in_or_app; left; exact Hin)) as (Hi' & Hj'). destruct (Inj i' j' i j Hi' Hj' Hi Hj E) as (-> & ->). contradiction. }
    rewrite fold_left_app, Ew. cbn [fold_left]. unfold put_one at 1. cbn [rbind fst snd]. rewrite (Hel i j Hi Hj). rewrite (get_same w ws nb (nm i j) ct Fw).
    destruct (Hget i j Hi Hj) as (v & Ev & Vv). rewrite Ev. cbn [rbind]. change (num reals) with r_num. rewrite Vv, clean_num. eexists. split; [reflexivity|]. intros name. split.
    + intros Hn. pose proof (Hn i j ltac:(apply in_or_app; right; left; reflexivity)) as Nij.
      assert (Fn : find name w = find name ws) by (apply (Aw name); intros i' j' Hin; apply Hn; apply in_or_app; left; exact Hin).
      destruct (r_num _); [exact Fn|]. rewrite find_set. replace (str_eqb name (nm i j)) with false; [exact Fn|]. symmetry. apply str_eqb_neq. congruence.
    + intros i' j' Hin ->. apply in_app_or in Hin. destruct Hin as [Hin|[Hin|[]]].
      * destruct (R i' j' ltac:(apply in_or_app; left; exact Hin)) as (Hi' & Hj'). destruct (Aw (nm i' j')) as (_ & K). specialize (K i' j' Hin eq_refl).
        destruct (r_num _); [exact K|]. rewrite find_set. replace (str_eqb (nm i' j') (nm i j)) with false; [exact K|]. symmetry. apply str_eqb_neq. intros E.
        destruct (Inj i' j' i j Hi' Hj' Hi Hj E) as (-> & ->). contradiction.
      * injection Hin as <- <-. unfold known. destruct (r_num _); [exact Fw|]. rewrite find_set, str_eqb_refl, Fw. reflexivity.
Qed.
End Write.

Context (w : list (str * list R)).
Hypothesis Run : RasExecute reals ws nb pattern (xs ++ [xsum]) (ys ++ [ysum]) rt ct maxit eps = Ok (true, w).
Context (C1 : forall i j, (i < n)%nat -> (j < m)%nat -> clear (value ws (nm i j) rt) /\ clear (value ws (nm i j) ct)).
Context (C2 : forall i, (i < n)%nat -> clear (value ws (rn i) ct)) (C3 : forall j, (j < m)%nat -> clear (value ws (cn j) ct)).
Definition rest_row i : R := value ws (rn i) ct - known_sum m (fun j => value ws (nm i j) ct).
Definition rest_col j : R := value ws (cn j) ct - known_sum n (fun i => value ws (nm i j) ct).
Definition begin i j : R := if known_at i j then 0 else value ws (nm i j) rt.
Lemma in_prod_seq i j : In (i, j) (list_prod (seq 0 n) (seq 0 m)) <-> (i < n)%nat /\ (j < m)%nat.
Proof. rewrite in_prod_iff, !in_seq. lia. Qed.
Lemma nodup_prod {X Y} (l : list X) (k : list Y) : NoDup l -> NoDup k -> NoDup (list_prod l k).
Proof.
  intros Dl Dk. induction Dl as [|x l Nx Dl IH]; [constructor|]. cbn [list_prod]. apply NoDup_app_intro.
  - apply FinFun.Injective_map_NoDup; [intros a b E; congruence|exact Dk].
  - exact IH.
  - intros (a, b) H1 H2. apply in_map_iff in H1. destruct H1 as (y & E & _). injection E as <- <-. apply in_prod_iff in H2. destruct H2 as (H2 & _). contradiction.
Qed.
Lemma command_parts : exists a, RasCalc reals n m (build reals n m begin) (map rest_row (seq 0 n)) (map rest_col (seq 0 m)) maxit eps = Some a
  /\ (0 <= ct < nb)%Z /\ (0 < n)%nat /\ (0 < m)%nat
  /\ (forall i j, (i < n)%nat -> (j < m)%nat -> value w (nm i j) ct = if known_at i j then value ws (nm i j) ct else get a i j)
  /\ (forall i j t, (i < n)%nat -> (j < m)%nat -> (0 <= t)%Z -> t <> ct -> value w (nm i j) t = value ws (nm i j) t)
  /\ (forall name, (forall i j, (i < n)%nat -> (j < m)%nat -> nm i j <> name) -> find name w = find name ws).
Proof.
  unfold RasExecute in Run. destruct ((rt <? 0)%Z || (ct <? 0)%Z) eqn:Eper; [discriminate|]. rewrite !rev_app_distr in Run. cbn [rev app] in Run. rewrite !rev_involutive in Run.
  destruct (Nat.eqb n 0 || Nat.eqb m 0) eqn:Enm; [discriminate|]. assert (Nn : (0 < n)%nat) by lia. assert (Nm : (0 < m)%nat) by lia.
  destruct (read_elements reals ws nb pattern rt ct xs ys) as [e| |] eqn:Ee; cbn [rbind] in Run; try discriminate. destruct e as [es|]; [|discriminate].
  pose proof (elements_read es Ee) as Pe.
  destruct (read_controls reals ws nb ct (map (fun x => name_yx pattern x ysum) xs)) as [r| |] eqn:Er; cbn [rbind] in Run; try discriminate. destruct r as [rs|]; [|discriminate].
  destruct (read_controls reals ws nb ct (map (fun y => name_xy pattern xsum y) ys)) as [c| |] eqn:Ec; cbn [rbind] in Run; try discriminate. destruct c as [cs|]; [|discriminate].
  assert (Nr : forall k, (k < n)%nat -> nth k (map (fun x => name_yx pattern x ysum) xs) UB = Ok (rn k)).
  { intros k Hk. rewrite (nth_indep _ UB (name_yx pattern [] ysum)) by (rewrite map_length; exact Hk). rewrite (map_nth (fun x => name_yx pattern x ysum) xs []). apply Hrn. exact Hk. }
  assert (Nc : forall k, (k < m)%nat -> nth k (map (fun y => name_xy pattern xsum y) ys) UB = Ok (cn k)).
  { intros k Hk. rewrite (nth_indep _ UB (name_xy pattern xsum [])) by (rewrite map_length; exact Hk). rewrite (map_nth (fun y => name_xy pattern xsum y) ys []). apply Hcn. exact Hk. }
  destruct (controls_read _ rs rn n Er (map_length _ _) Nr) as (Lr & Pr). destruct (controls_read _ cs cn m Ec (map_length _ _) Nc) as (Lc & Pc).
  assert (El2 : forall i j, (i < n)%nat -> (j < m)%nat -> snd (el reals es i j) = if known_at i j then Some (value ws (nm i j) ct) else None).
  { intros i j Hi Hj. destruct (Pe i j Hi Hj) as (E & _). rewrite E. cbn [snd]. rewrite clean_clear by apply (C1 i j Hi Hj). reflexivity. }
  assert (Rows : map (fun i => less_known reals m (fun j => el reals es i j) (nth i rs 0)) (seq 0 n) = map rest_row (seq 0 n)).
  { apply map_ext_in. intros i Hi. apply in_seq in Hi. unfold rest_row. rewrite (less_known_at m _ (fun j => value ws (nm i j) ct)) by (intros; apply El2; lia).
    destruct (Pr i ltac:(lia)) as (Ei & _). rewrite Ei, clean_clear by (apply C2; lia). reflexivity. }
  assert (Cols : map (fun j => less_known reals n (fun i => el reals es i j) (nth j cs 0)) (seq 0 m) = map rest_col (seq 0 m)).
  { apply map_ext_in. intros j Hj. apply in_seq in Hj. unfold rest_col. rewrite (less_known_at n _ (fun i => value ws (nm i j) ct)) by (intros; apply El2; lia).
    destruct (Pc j ltac:(lia)) as (Ei & _). rewrite Ei, clean_clear by (apply C3; lia). reflexivity. }
  assert (Start : start_matrix reals n m es = build reals n m begin).
  { unfold start_matrix, build. apply map_ext_in. intros i Hi. apply in_seq in Hi. apply map_ext_in. intros j Hj. apply in_seq in Hj. destruct (Pe i j ltac:(lia) ltac:(lia)) as (E & _). rewrite E. unfold begin.
    rewrite (clean_clear (value ws (nm i j) rt)) by (apply C1; lia). destruct (known_at i j); reflexivity. }
  match type of Run with context [RasCalc ?A0 ?n0 ?m0 ?s0 ?r0 ?c0 ?i0 ?e0] => destruct (RasCalc A0 n0 m0 s0 r0 c0 i0 e0) as [a|] eqn:Ea0 end; [|discriminate].
  assert (Ea : RasCalc reals n m (build reals n m begin) (map rest_row (seq 0 n)) (map rest_col (seq 0 m)) maxit eps = Some a) by (rewrite <- Rows, <- Cols, <- Start; exact Ea0). clear Ea0.
  destruct (write_steps es a (fun i j Hi Hj => f_equal (fun e => fst (fst e)) (proj1 (Pe i j Hi Hj))) (fun i j Hi Hj => proj1 (proj2 (proj2 (Pe i j Hi Hj)))) (list_prod (seq 0 n) (seq 0 m))) as (w' & Ew & Aw).
  { intros i j H. apply in_prod_seq. exact H. }
  { apply nodup_prod; apply seq_NoDup. }
  assert (Ew' : write_back reals nb ct es a n m ws = Ok w') by exact Ew. rewrite Ew' in Run. cbn [rbind] in Run. injection Run as <-.
  assert (Ct : (0 <= ct < nb)%Z) by apply (Pe 0%nat 0%nat Nn Nm).
  exists a. split; [exact Ea|]. split; [exact Ct|]. split; [exact Nn|]. split; [exact Nm|]. split; [|split].
  - intros i j Hi Hj. destruct (Aw (nm i j)) as (_ & K). specialize (K i j (proj2 (in_prod_seq i j) (conj Hi Hj)) eq_refl). destruct (Pe i j Hi Hj) as (_ & _ & _ & (l & Fl) & _).
    destruct (known_at i j); unfold value; rewrite K; [reflexivity|]. rewrite Fl. cbn [option_map]. rewrite upd_list_nth by (rewrite (Wf _ _ Fl); lia). rewrite Nat.eqb_refl. reflexivity.
  - intros i j t Hi Hj Ht Nt. destruct (Aw (nm i j)) as (_ & K). specialize (K i j (proj2 (in_prod_seq i j) (conj Hi Hj)) eq_refl). destruct (Pe i j Hi Hj) as (_ & _ & _ & (l & Fl) & _).
    destruct (known_at i j); unfold value; rewrite K; [reflexivity|]. rewrite Fl. cbn [option_map]. rewrite upd_list_nth by (rewrite (Wf _ _ Fl); lia). replace (Nat.eqb (Z.to_nat t) (Z.to_nat ct)) with false by lia. reflexivity.
  - intros name Hn. destruct (Aw name) as (K & _). apply K. intros i j H. apply in_prod_seq in H. apply Hn; apply H.
Qed.
End Command.
