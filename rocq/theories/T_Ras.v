(** The RAS method. *)
From Coq Require Import ZArith Ascii String List Bool Lia Reals Lra ZifyBool QArith Qcanon.
From Verif Require Import M_Base M_Lex M_Kdb M_Time M_Exec M_Exact M_Real M_Matrix M_Ras S_Matrix S_Hodrick S_Ras L_Matrix L_Estim2 L_Estim3 L_Hodrick L_Ras L_Ras2 L_Ras3.
Import ListNotations.
Open Scope R_scope.

(** * C91: matrices adjusted to sums *)

Section Statements.
Context (n m : nat) (row col : list R).
Notation ro := (fun i => nth i row 0).
Notation co := (fun j => nth j col 0).
Lemma row_sum_eq a i : row_sum m a i = rsum m (gt a) i.
Proof. unfold row_sum. rewrite sum_to_eq. reflexivity. Qed.
Lemma col_sum_eq a j : col_sum n a j = csum n (gt a) j.
Proof. unfold col_sum. rewrite sum_to_eq. reflexivity. Qed.
End Statements.

(** The result: for a threshold less than 1 the rows whose control is not 0 have exactly the sum of the control, the columns differ from theirs
    by at most the threshold in proportion; for a matrix and controls that are not negative, by at most eps times the control. *)
Theorem C91_sums : forall n m (a : mat reals) (row col : list R) maxit eps a', RasCalc reals n m a row col maxit eps = Some a' -> eps < 1 ->
  (forall i, (i < n)%nat -> nth i row 0 <> 0 -> row_sum m a' i = nth i row 0)
  /\ (forall j, (j < m)%nat -> nth j col 0 <> 0 -> Rabs (col_sum n a' j - nth j col 0) <= eps / (1 - eps) * sum_to n (fun i => Rabs (el_at a' i j)))
  /\ (not_negative n m a -> (forall i, (i < n)%nat -> 0 <= nth i row 0) -> (forall j, (j < m)%nat -> 0 <= nth j col 0) ->
      forall j, (j < m)%nat -> nth j col 0 <> 0 -> Rabs (col_sum n a' j - nth j col 0) <= eps * nth j col 0).
Proof.
  intros n m a row col maxit eps a' E L. destruct (calc_some n m row col a maxit eps a' E) as (P & _ & k & _ & _ & O & S). set (b := steps n m (fun i => nth i row 0) (fun j => nth j col 0) k (gt a)) in *. rewrite steps_S in S. fold b in S.
  split; [|split].
  - intros i Hi N. rewrite row_sum_eq, (rsum_same n m _ _ i S Hi). exact (rows_exact n m _ _ b eps i L O Hi N).
  - intros j Hj N. rewrite col_sum_eq, (csum_same n m _ _ j S Hj). eapply Rle_trans; [exact (cols_gap n m _ _ b eps j L O Hj N)|]. rewrite (sum_to_eq n (fun i => Rabs (el_at a' i j))). unfold Rdiv. rewrite Rmult_assoc. apply Rmult_le_compat_l; [exact P|].
    rewrite <- sum_mult. apply sum_le. intros i Hi. unfold el_at. change (get a' i j) with (gt a' i j). rewrite (S i j Hi Hj). unfold step, sr. destruct O as (_ & O). pose proof (O i Hi) as Oi. rewrite Rabs_mult.
    set (x := Rabs (sc n (fun j => nth j col 0) b i j)). pose proof (Rabs_pos (sc n (fun j => nth j col 0) b i j)) as Px. fold x in Px.
    pose proof (Rle_abs (- (rf m (fun i => nth i row 0) (sc n (fun j => nth j col 0) b) i - 1))) as Q. rewrite Rabs_Ropp in Q. pose proof (Rle_abs (rf m (fun i => nth i row 0) (sc n (fun j => nth j col 0) b) i)) as Q'.
    apply (Rmult_le_reg_l (1 - eps)); [lra|]. rewrite <- Rmult_assoc, Rinv_r, Rmult_1_l by lra. rewrite (Rmult_comm x). apply Rmult_le_compat_r; [exact Px|lra].
  - intros Pa Pr Pc j Hj N. rewrite col_sum_eq, (csum_same n m _ _ j S Hj). eapply Rle_trans; [exact (cols_gap n m _ _ b eps j L O Hj N)|]. apply Rmult_le_compat_l; [exact P|].
    rewrite (sum_ext n _ (fun i => sc n (fun j => nth j col 0) b i j)); [right; exact (cols_exact n m _ _ b eps j L O Hj N)|]. intros i Hi. apply Rabs_right. apply Rle_ge.
    apply (sc_nonneg n m (fun i => nth i row 0) (fun j => nth j col 0) b (conj Pr Pc)); [|exact Hi|exact Hj]. apply steps_nonneg; [exact (conj Pr Pc)|exact Pa].
Qed.
(** The result is the first matrix, its rows and its columns multiplied by numbers that are not 0 (positive, if the matrix and the controls are
    not negative): zeros stay zeros, and only they are. *)
Theorem C91_form : forall n m (a : mat reals) (row col : list R) maxit eps a', RasCalc reals n m a row col maxit eps = Some a' -> eps < 1 ->
  exists r c : nat -> R, scaled n m a a' r c /\ (forall i, (i < n)%nat -> r i <> 0) /\ (forall j, (j < m)%nat -> c j <> 0)
  /\ (not_negative n m a -> (forall i, (i < n)%nat -> 0 <= nth i row 0) -> (forall j, (j < m)%nat -> 0 <= nth j col 0) ->
      exists r c : nat -> R, scaled n m a a' r c /\ (forall i, (i < n)%nat -> 0 < r i) /\ (forall j, (j < m)%nat -> 0 < c j)).
Proof.
  intros n m a row col maxit eps a' E L. destruct (calc_some n m row col a maxit eps a' E) as (P & _ & k & _ & _ & O & S).
  destruct (final_form n m (fun i => nth i row 0) (fun j => nth j col 0) (gt a) eps k L O) as (r & c & F & Nr & Nc & _). exists r, c. split; [|split; [exact Nr|split; [exact Nc|]]].
  - intros i j Hi Hj. unfold el_at. change (get a' i j) with (gt a' i j). rewrite (S i j Hi Hj). exact (F i j).
  - intros Pa Pr Pc. destruct (positive_form n m (fun i => nth i row 0) (fun j => nth j col 0) (gt a) eps k L (conj Pr Pc) Pa O) as (r' & c' & F' & Qr & Qc). exists r', c'. split; [|split; assumption].
    intros i j Hi Hj. unfold el_at. change (get a' i j) with (gt a' i j). rewrite (S i j Hi Hj). exact (F' i j).
Qed.
(** A matrix that has the sums is left as it is, after one iteration. *)
Theorem C91_met : forall n m (a : mat reals) (row col : list R) maxit eps, 0 <= eps -> Rabs (sum_to m (fun j => nth j col 0) - sum_to n (fun i => nth i row 0)) <= eps ->
  (forall i, (i < n)%nat -> nth i row 0 <> 0 -> row_sum m a i = nth i row 0) -> (forall j, (j < m)%nat -> nth j col 0 <> 0 -> col_sum n a j = nth j col 0) ->
  exists a', RasCalc reals n m a row col maxit eps = Some a' /\ forall i j, (i < n)%nat -> (j < m)%nat -> el_at a' i j = el_at a i j.
Proof.
  intros n m a row col maxit eps P Q R C. set (ro := fun i => nth i row 0). set (co := fun j => nth j col 0).
  destruct (met_step n m ro co (gt a)) as (S & O); [intros i Hi N; rewrite <- row_sum_eq; apply R; assumption|intros j Hj N; rewrite <- col_sum_eq; apply C; assumption|].
  rewrite (sum_to_eq m), (sum_to_eq n) in Q. rewrite (calc_loop n m row col a maxit eps Q).
  destruct (ras_loop reals (Z.to_nat maxit) n m row col eps a) as [a'|] eqn:E.
  - exists a'. split; [reflexivity|]. destruct (loop_some n m row col _ eps a a' E) as (_ & k & _ & Nk & _ & S'). assert (k = 0)%nat as -> by (destruct k; [reflexivity|exfalso; apply (Nk 0%nat); [lia|apply O; exact P]]).
    intros i j Hi Hj. unfold el_at. change (gt a' i j = gt a i j). rewrite (S' i j Hi Hj). exact (S i j Hi Hj).
  - exfalso. apply (loop_none n m row col _ eps a P E 0%nat); [lia|apply O; exact P].
Qed.
(** No other matrix of this form has the sums of the result. *)
Theorem C91_unique : forall n m (a : mat reals) (row col : list R) maxit eps a' b r c, RasCalc reals n m a row col maxit eps = Some a' -> eps < 1 ->
  not_negative n m a -> (forall i, (i < n)%nat -> 0 <= nth i row 0) -> (forall j, (j < m)%nat -> 0 <= nth j col 0) ->
  scaled n m a b r c -> (forall i, (i < n)%nat -> 0 < r i) -> (forall j, (j < m)%nat -> 0 < c j) ->
  (forall i, (i < n)%nat -> row_sum m b i = row_sum m a' i) -> (forall j, (j < m)%nat -> col_sum n b j = col_sum n a' j) ->
  forall i j, (i < n)%nat -> (j < m)%nat -> el_at b i j = el_at a' i j.
Proof.
  intros n m a row col maxit eps a' b r c E L Pa Pr Pc Sb Qr Qc Er Ec. destruct (C91_form n m a row col maxit eps a' E L) as (_ & _ & _ & _ & _ & F). destruct (F Pa Pr Pc) as (r' & c' & S' & R' & C').
  apply (biproportional_unique n m (el_at a) (el_at b) (el_at a') r c r' c'); try assumption.
  - intros i Hi. split; [apply Qr; exact Hi|apply R'; exact Hi].
  - intros j Hj. split; [apply Qc; exact Hj|apply C'; exact Hj].
Qed.
(** The iterations converge for every threshold, if the controls are positive and some matrix has these sums and zeros where the first matrix
    has zeros. *)
Theorem C91_converges : forall n m (a x : mat reals) (row col : list R) eps, 0 < eps -> not_negative n m a -> not_negative n m x ->
  (forall i, (i < n)%nat -> 0 < nth i row 0) -> (forall j, (j < m)%nat -> 0 < nth j col 0) ->
  (forall i, (i < n)%nat -> row_sum m x i = nth i row 0) -> (forall j, (j < m)%nat -> col_sum n x j = nth j col 0) ->
  (forall i j, (i < n)%nat -> (j < m)%nat -> el_at a i j = 0 -> el_at x i j = 0) ->
  exists N, forall maxit, (N <= maxit)%Z -> exists a', RasCalc reals n m a row col maxit eps = Some a'.
Proof.
  intros n m a x row col eps Pe Pa Px Pr Pc Xr Xc Z. set (ro := fun i => nth i row 0). set (co := fun j => nth j col 0).
  assert (Xr' : forall i, (i < n)%nat -> SumR m (fun j => el_at x i j) = ro i) by (intros i Hi; rewrite <- sum_to_eq; exact (Xr i Hi)).
  assert (Xc' : forall j, (j < m)%nat -> SumR n (fun i => el_at x i j) = co j) by (intros j Hj; rewrite <- sum_to_eq; exact (Xc j Hj)).
  assert (G : good n m (el_at x) (gt a)).
  { intros i j Hi Hj. split; [exact (Pa i j Hi Hj)|]. intros K. destruct (Rle_lt_or_eq_dec _ _ (Pa i j Hi Hj)) as [Q|Q]; [exact Q|]. rewrite (Z i j Hi Hj (eq_sym Q)) in K. lra. }
  destruct (some_ok n m ro co (el_at x) Pr Pc Px Xr' Xc' (gt a) eps Pe G) as (K & k & Hk & O). exists (Z.of_nat K). intros maxit Hm.
  destruct (RasCalc reals n m a row col maxit eps) as [a'|] eqn:E; [exists a'; reflexivity|exfalso].
  assert (L : Rabs (SumR m co - SumR n ro) <= eps).
  { assert (T : SumR m co = SumR n ro) by exact (total_cols n m ro co (el_at x) Xr' Xc'). rewrite T, Rminus_diag_eq by reflexivity. rewrite Rabs_R0. lra. }
  rewrite (calc_loop n m row col a maxit eps L) in E. apply (loop_none n m row col _ eps a (Rlt_le _ _ Pe) E k); [lia|exact O].
Qed.
(** The rows whose control is 0: if no control of a column is 0, their sum is small. *)
Theorem C91_zero_rows : forall n m (a : mat reals) (row col : list R) maxit eps a', RasCalc reals n m a row col maxit eps = Some a' -> eps < 1 ->
  not_negative n m a -> (forall i, (i < n)%nat -> 0 <= nth i row 0) -> (forall j, (j < m)%nat -> 0 < nth j col 0) ->
  forall i, (i < n)%nat -> nth i row 0 = 0 -> 0 <= row_sum m a' i <= eps * (1 + sum_to m (fun j => nth j col 0)).
Proof.
  intros n m a row col maxit eps a' E L Pa Pr Pc i Hi Z. destruct (C91_sums n m a row col maxit eps a' E L) as (R & _ & C).
  destruct (calc_some n m row col a maxit eps a' E) as (P & T & _). assert (Pc' : forall j, (j < m)%nat -> 0 <= nth j col 0) by (intros j Hj; apply Rlt_le, Pc, Hj).
  destruct (C91_form n m a row col maxit eps a' E L) as (_ & _ & _ & _ & _ & Fo). destruct (Fo Pa Pr Pc') as (r & c & S & Qr & Qc).
  assert (Na : nonneg n m (gt a')).
  { intros q j Hq Hj. pose proof (S q j Hq Hj) as K. unfold el_at in K. unfold gt. rewrite K. pose proof (Qr q Hq). pose proof (Qc j Hj). pose proof (Pa q j Hq Hj) as Pq. unfold el_at in Pq. apply Rmult_le_pos; [apply Rmult_le_pos|]; lra. }
  assert (Ps : forall q, (q < n)%nat -> 0 <= row_sum m a' q) by (intros q Hq; rewrite row_sum_eq; apply (rsum_nonneg n m); assumption).
  split; [exact (Ps i Hi)|]. rewrite sum_to_eq.
  assert (K1 : row_sum m a' i - nth i row 0 <= SumR n (fun q => row_sum m a' q - nth q row 0)).
  { apply (sum_at_least n (fun q => row_sum m a' q - nth q row 0) i); [|exact Hi]. intros q Hq. destruct (Req_dec (nth q row 0) 0) as [Zq|Nq]; [rewrite Zq; pose proof (Ps q Hq); lra|rewrite (R q Hq Nq); lra]. }
  assert (K0 : row_sum m a' i - nth i row 0 <= SumR n (fun q => row_sum m a' q) - SumR n (fun q => nth q row 0)) by (rewrite <- sum_sub; exact K1). assert (K2 : SumR n (fun q => row_sum m a' q) = SumR m (fun j => col_sum n a' j)).
  { rewrite (sum_ext n _ (fun q => rsum m (gt a') q)) by (intros; apply row_sum_eq). rewrite (sum_ext m _ (fun j => csum n (gt a') j)) by (intros; apply col_sum_eq). unfold rsum, csum. apply sum_swap. }
  assert (K3 : SumR m (fun j => col_sum n a' j) <= SumR m (fun j => (1 + eps) * nth j col 0)).
  { apply sum_le. intros j Hj. pose proof (Pc j Hj). pose proof (C Pa Pr Pc' j Hj ltac:(lra)) as G. pose proof (Rle_abs (col_sum n a' j - nth j col 0)). lra. }
  rewrite sum_mult in K3. pose proof (Rle_abs (SumR m (fun j => nth j col 0) - SumR n (fun i => nth i row 0))) as K4.
  set (A := SumR n (fun q => row_sum m a' q)) in *. set (B := SumR m (fun j => col_sum n a' j)) in *. set (Cc := SumR m (fun j => nth j col 0)) in *. set (D := SumR n (fun q => nth q row 0)) in *. lra.
Qed.

(** The command on the variables of the workspace: x and y are replaced in the pattern by the elements of the two lists, of which the last ones
    stand for the sums. [nm] names the elements, [rn] and [cn] the sums. When the command succeeds, with a threshold less than 1: *)
Definition readable ws nb rt ct (xs ys : list str) (nm : nat -> nat -> str) (rn cn : nat -> str) : Prop :=
  (forall i j i' j', (i < length xs)%nat -> (j < length ys)%nat -> (i' < length xs)%nat -> (j' < length ys)%nat -> nm i j = nm i' j' -> i = i' /\ j = j')
  /\ (forall name l, find name ws = Some l -> length l = Z.to_nat nb)
  /\ (forall i j, (i < length xs)%nat -> (j < length ys)%nat -> clear (value ws (nm i j) rt) /\ clear (value ws (nm i j) ct))
  /\ (forall i, (i < length xs)%nat -> clear (value ws (rn i) ct)) /\ (forall j, (j < length ys)%nat -> clear (value ws (cn j) ct)).
Theorem C91_command : forall ws nb pattern xs xsum ys ysum rt ct maxit eps w nm rn cn,
  RasExecute reals ws nb pattern (xs ++ [xsum]) (ys ++ [ysum]) rt ct maxit eps = Ok (true, w) -> eps < 1 ->
  (forall i j, (i < length xs)%nat -> (j < length ys)%nat -> name_xy pattern (nth i xs []) (nth j ys []) = Ok (nm i j)) ->
  (forall i, (i < length xs)%nat -> name_yx pattern (nth i xs []) ysum = Ok (rn i)) -> (forall j, (j < length ys)%nat -> name_xy pattern xsum (nth j ys []) = Ok (cn j)) ->
  readable ws nb rt ct xs ys nm rn cn ->
  let x i j := value w (nm i j) ct in let old i j := value ws (nm i j) ct in
  let rest_row i := value ws (rn i) ct - known_sum (length ys) (fun j => old i j) in let rest_col j := value ws (cn j) ct - known_sum (length xs) (fun i => old i j) in
  (* the rows that are not complete without the unknown elements have their sum; *)
  (forall i, (i < length xs)%nat -> rest_row i <> 0 -> sum_to (length ys) (fun j => x i j) = value ws (rn i) ct)
  (* the columns have theirs up to the threshold; *)
  /\ ((forall i j, (i < length xs)%nat -> (j < length ys)%nat -> known (old i j) = false -> 0 <= value ws (nm i j) rt) ->
      (forall i, (i < length xs)%nat -> 0 <= rest_row i) -> (forall j, (j < length ys)%nat -> 0 <= rest_col j) ->
      forall j, (j < length ys)%nat -> rest_col j <> 0 -> Rabs (sum_to (length xs) (fun i => x i j) - value ws (cn j) ct) <= eps * rest_col j)
  (* the unknown elements are those of the reference period times a number for the row and one for the column; *)
  /\ (exists r c : nat -> R, forall i j, (i < length xs)%nat -> (j < length ys)%nat -> known (old i j) = false -> x i j = r i * value ws (nm i j) rt * c j)
  (* the elements that are known, the other periods and the other variables are as before. *)
  /\ (forall i j, (i < length xs)%nat -> (j < length ys)%nat -> known (old i j) = true -> x i j = old i j)
  /\ (forall name t, (0 <= t)%Z -> (t <> ct \/ forall i j, (i < length xs)%nat -> (j < length ys)%nat -> nm i j <> name) -> value w name t = value ws name t).
Proof.
  intros ws nb pattern xs xsum ys ysum rt ct maxit eps w nm rn cn Run L Hnm Hrn Hcn (Inj & Wf & C1 & C2 & C3) x old rrow rcol.
  destruct (command_parts ws nb rt ct pattern xs ys xsum ysum maxit eps nm rn cn Hnm Hrn Hcn Inj Wf w Run C1 C2 C3) as (a & Ea & Ct & Nn & Nm & V1 & V2 & V3).
  set (n := length xs) in *. set (m := length ys) in *. set (st := build reals n m (begin ws rt ct nm)) in *.
  set (row := map (rest_row ws ct ys nm rn) (seq 0 n)) in *. set (col := map (rest_col ws ct xs nm cn) (seq 0 m)) in *.
  assert (Er : forall i, (i < n)%nat -> nth i row 0 = rrow i) by (intros i Hi; unfold row; rewrite nth_seq_map by exact Hi; reflexivity).
  assert (Ec : forall j, (j < m)%nat -> nth j col 0 = rcol j) by (intros j Hj; unfold col; rewrite nth_seq_map by exact Hj; reflexivity).
  assert (Est : forall i j, (i < n)%nat -> (j < m)%nat -> el_at st i j = if known (old i j) then 0 else value ws (nm i j) rt) by (intros i j Hi Hj; unfold el_at, st; rewrite (get_build reals) by assumption; reflexivity).
  destruct (C91_sums n m st row col maxit eps a Ea L) as (SR & _ & SC). destruct (C91_form n m st row col maxit eps a Ea L) as (r & c & F & _ & _ & _).
  assert (Ex : forall i j, (i < n)%nat -> (j < m)%nat -> x i j = (if known (old i j) then old i j else 0) + el_at a i j).
  { intros i j Hi Hj. unfold x. rewrite (V1 i j Hi Hj). fold (old i j). rewrite (F i j Hi Hj), (Est i j Hi Hj). destruct (known (old i j)) eqn:K; [ring|]. rewrite Rplus_0_l. change (get a i j) with (el_at a i j). rewrite (F i j Hi Hj), (Est i j Hi Hj), K. reflexivity. }
  split; [|split; [|split; [|split]]].
  - intros i Hi N. rewrite sum_to_eq.
    transitivity (SumR m (fun j => if known (old i j) then old i j else 0) + SumR m (fun j => el_at a i j)); [rewrite <- sum_plus; apply sum_ext; intros j Hj; apply Ex; assumption|].
    pose proof (SR i Hi ltac:(rewrite Er by exact Hi; exact N)) as K. rewrite Er in K by exact Hi. unfold row_sum in K. rewrite (sum_to_eq m (fun j => el_at a i j)) in K. rewrite K. unfold rrow, known_sum. rewrite (sum_to_eq m (fun j => if known (old i j) then old i j else 0)). ring.
  - intros P1 P2 P3 j Hj N. rewrite (sum_to_eq n (fun i => x i j)).
    replace (SumR n (fun i => x i j)) with (SumR n (fun i => if known (old i j) then old i j else 0) + SumR n (fun i => el_at a i j)) by (rewrite <- sum_plus; apply sum_ext; intros i Hi; symmetry; apply Ex; assumption).
    assert (K : Rabs (col_sum n a j - nth j col 0) <= eps * nth j col 0).
    { apply SC; [|intros i Hi; rewrite Er by exact Hi; apply P2; exact Hi|intros q Hq; rewrite Ec by exact Hq; apply P3; exact Hq|exact Hj|rewrite Ec by exact Hj; exact N].
      intros i q Hi Hq. rewrite Est by assumption. destruct (known (old i q)) eqn:Kq; [lra|apply P1; assumption]. }
    rewrite Ec in K by exact Hj. unfold col_sum in K. rewrite (sum_to_eq n (fun i => el_at a i j)) in K.
    assert (Q : rcol j = value ws (cn j) ct - SumR n (fun k => if known (old k j) then old k j else 0)) by (unfold rcol, known_sum; rewrite (sum_to_eq n (fun k => if known (old k j) then old k j else 0)); reflexivity).
    replace (SumR n (fun i => if known (old i j) then old i j else 0) + SumR n (fun i => el_at a i j) - value ws (cn j) ct) with (SumR n (fun i => el_at a i j) - rcol j) by (rewrite Q; ring). exact K.
  - exists r, c. intros i j Hi Hj K. rewrite Ex by assumption. rewrite K, Rplus_0_l, (F i j Hi Hj), (Est i j Hi Hj), K. reflexivity.
  - intros i j Hi Hj K. unfold x. rewrite (V1 i j Hi Hj). fold (old i j). rewrite K. reflexivity.
  - intros name t Ht [Nt|Nn'].
    + destruct (in_dec_cells xs ys nm name) as [(i & j & Hi & Hj & <-)|No]; [apply V2; assumption|]. unfold value. rewrite V3 by exact No. reflexivity.
    + unfold value. rewrite V3 by exact Nn'. reflexivity.
Qed.
(** When it fails the workspace is as before. *)
Theorem C91_failure : forall A ws nb pattern xdim ydim rt ct maxit eps w, RasExecute A ws nb pattern xdim ydim rt ct maxit eps = Ok (false, w) -> w = ws.
Proof.
  intros A ws nb pattern xdim ydim rt ct maxit eps w. unfold RasExecute. destruct ((rt <? 0)%Z || (ct <? 0)%Z); [congruence|].
  destruct (rev xdim) as [|x rx]; [destruct (_ || _); congruence|]. destruct (rev ydim) as [|y ry]; [destruct (_ || _); congruence|]. destruct (_ || _); [congruence|].
  destruct (read_elements _ _ _ _ _ _ _ _) as [[es|]| |]; cbn [rbind]; try congruence. destruct (read_controls _ _ _ _ _) as [[rs|]| |]; cbn [rbind]; try congruence.
  destruct (read_controls _ _ _ _ _) as [[cs|]| |]; cbn [rbind]; try congruence. destruct (RasCalc _ _ _ _ _ _ _ _) as [a|]; [|congruence].
  destruct (write_back _ _ _ _ _ _ _ _); cbn [rbind]; congruence.
Qed.
Print Assumptions C91_sums.
Print Assumptions C91_form.
Print Assumptions C91_met.
Print Assumptions C91_unique.
Print Assumptions C91_converges.
Print Assumptions C91_zero_rows.
Print Assumptions C91_command.
Print Assumptions C91_failure.

(** Refuted: a control that is 0 is the sum of its row. A row whose control is 0 is skipped; an element that is also in such a column never
    changes. *)
Definition q_two (a b c d : Z) : mat exactly := [[q_ofZ a; q_ofZ b]; [q_ofZ c; q_ofZ d]].
Theorem C91_zero_control_refuted : ~ (forall (a a' : mat exactly) row col maxit eps, RasCalc exactly 2 2 a row col maxit eps = Some a' ->
  (forall i, (i < 2)%nat -> Sum exactly 2 (fun j => get a' i j) = nth i row (q_ofZ 0))).
Proof.
  intros K. specialize (K (q_two 1 0 0 5) (q_two 1 0 0 5) [q_ofZ 1; q_ofZ 0] [q_ofZ 1; q_ofZ 0] 10%Z (q_ofZ 0) ltac:(vm_compute; reflexivity) 1%nat ltac:(lia)).
  assert (Q : this (Sum exactly 2 (fun j => get (q_two 1 0 0 5) 1 j)) = this (q_ofZ 0)) by (rewrite K; reflexivity). vm_compute in Q. discriminate Q.
Qed.
(** Refuted: at most [maxit] iterations: one more is made. *)
Theorem C91_iterations_refuted : ~ (forall (a a' : mat exactly) row col maxit eps, RasCalc exactly 2 2 a row col maxit eps = Some a' -> (0 < maxit)%Z ->
  exists k, (k < Z.to_nat maxit)%nat /\ ras_loop exactly k 2 2 row col eps a = Some a').
Proof.
  intros K. specialize (K (q_two 1 1 1 1) (q_two 1 2 1 2) [q_ofZ 3; q_ofZ 3] [q_ofZ 2; q_ofZ 4] 1%Z (q_ofZ 0) ltac:(vm_compute; reflexivity) ltac:(lia)).
  destruct K as (k & Hk & E). assert (k = 0)%nat as -> by lia. vm_compute in E. discriminate E.
Qed.
(** Refuted: with an eps of 1 or more, the rows have their sums. A row of zeros stays as it is and the command succeeds. *)
Theorem C91_large_eps_refuted : ~ (forall (a a' : mat exactly) row col maxit eps, RasCalc exactly 2 2 a row col maxit eps = Some a' ->
  (forall i, (i < 2)%nat -> nth i row (q_ofZ 0) <> q_ofZ 0 -> Sum exactly 2 (fun j => get a' i j) = nth i row (q_ofZ 0))).
Proof.
  intros K.
  assert (E : exists a', RasCalc exactly 2 2 (q_two 1 1 0 0) [q_ofZ 2; q_ofZ 1] [q_ofZ 1; q_ofZ 2] 0 (q_ofZ 1) = Some a'
    /\ this (Sum exactly 2 (fun j => get a' 1 j)) = this (q_ofZ 0)) by (eexists; split; [vm_compute; reflexivity|vm_compute; reflexivity]).
  destruct E as (a' & E & Q).
  assert (N : nth 1 [q_ofZ 2; q_ofZ 1] (q_ofZ 0) <> q_ofZ 0) by (intros E0; assert (Q0 : this (q_ofZ 1) = this (q_ofZ 0)) by (rewrite <- E0; reflexivity); vm_compute in Q0; discriminate Q0).
  specialize (K _ _ _ _ _ _ E 1%nat ltac:(lia) N). rewrite K in Q. vm_compute in Q. discriminate Q.
Qed.
(** Refuted: a period after the sample gives the return code -1, as a period before it does. It throws an exception. *)
Definition small_ws : list (str * list Qc) :=
  [(S2L "A_1", [q_ofZ 1; q_na]); (S2L "A_2", [q_ofZ 1; q_na]); (S2L "A_T", [q_ofZ 2; q_ofZ 3]); (S2L "B_1", [q_ofZ 1; q_na]); (S2L "B_2", [q_ofZ 2; q_ofZ 4]);
   (S2L "B_T", [q_ofZ 3; q_ofZ 5]); (S2L "T_1", [q_ofZ 2; q_ofZ 3]); (S2L "T_2", [q_ofZ 3; q_ofZ 5])].
Notation run_ras rt ct := (RasExecute exactly small_ws 2 (S2L "x_y") [S2L "A"; S2L "B"; S2L "T"] [S2L "1"; S2L "2"; S2L "T"] rt ct 100 (Qcdiv (q_ofZ 1) (q_ofZ 1000))).
Theorem C91_period_refuted : ~ (forall rt ct, (rt < 0 \/ ct < 0 \/ 2 <= ct)%Z -> exists w, run_ras rt ct = Ok (false, w)).
Proof. intros K. destruct (K 0%Z 2%Z ltac:(lia)) as (w & E). vm_compute in E. discriminate E. Qed.
(** Refuted: a pattern that gives names of more than 64 characters is an error of the command: the buffers of the names are overrun, however
    short the names of the variables. *)
Theorem C91_long_pattern_refuted : ~ (forall ws nb pattern xdim ydim rt ct maxit eps, (0 <= rt < nb)%Z -> (0 <= ct < nb)%Z ->
  exists b w, RasExecute exactly ws nb pattern xdim ydim rt ct maxit eps = Ok (b, w)).
Proof.
  intros K. destruct (K [] 2%Z (repeat (chr 65) 65) [S2L "A"; S2L "T"] [S2L "B"; S2L "T"] 0%Z 1%Z 10%Z (q_ofZ 0) ltac:(lia) ltac:(lia)) as (b & w & E).
  vm_compute in E. discriminate E.
Qed.
Print Assumptions C91_long_pattern_refuted.
Print Assumptions C91_zero_control_refuted.
Print Assumptions C91_iterations_refuted.
Print Assumptions C91_large_eps_refuted.
Print Assumptions C91_period_refuted.

(** Non-vacuity: a matrix with a known element; the sums of the second period are 3 and 5, 3 and 5; the rows have them exactly. *)
Example small_run : exists w, run_ras 0 1 = Ok (true, w)
  /\ map (fun e => (fst e, map this (snd e))) w = map (fun e => (fst e, map this (snd e)))
  [(S2L "A_1", [q_ofZ 1; Qcdiv (q_ofZ 59049) (q_ofZ 29525)]); (S2L "A_2", [q_ofZ 1; Qcdiv (q_ofZ 29526) (q_ofZ 29525)]); (S2L "A_T", [q_ofZ 2; q_ofZ 3]); (S2L "B_1", [q_ofZ 1; q_ofZ 1]); (S2L "B_2", [q_ofZ 2; q_ofZ 4]);
   (S2L "B_T", [q_ofZ 3; q_ofZ 5]); (S2L "T_1", [q_ofZ 2; q_ofZ 3]); (S2L "T_2", [q_ofZ 3; q_ofZ 5])].
Proof. eexists. split; [vm_compute; reflexivity|vm_compute; reflexivity]. Qed.
(** A matrix and controls that meet the hypotheses of [C91_converges]. *)
Example converges_case : exists N, forall maxit, (N <= maxit)%Z ->
  exists a', RasCalc reals 2 2 ([[1; 1]; [0; 3]] : mat reals) [3; 3] [2; 4] (maxit) (1 / 1000) = Some a'.
Proof.
  apply (C91_converges 2 2 ([[1; 1]; [0; 3]] : mat reals) ([[2; 1]; [0; 3]] : mat reals) [3; 3] [2; 4] (1 / 1000)).
  - lra.
  - intros i j Hi Hj. unfold el_at, get. destruct i as [|[|i]]; [| |lia]; destruct j as [|[|j]]; try lia; cbn; lra.
  - intros i j Hi Hj. unfold el_at, get. destruct i as [|[|i]]; [| |lia]; destruct j as [|[|j]]; try lia; cbn; lra.
  - intros i Hi. destruct i as [|[|i]]; [| |lia]; cbn; lra.
  - intros j Hj. destruct j as [|[|j]]; [| |lia]; cbn; lra.
  - intros i Hi. unfold row_sum, el_at, get. destruct i as [|[|i]]; [| |lia]; cbn; lra.
  - intros j Hj. unfold col_sum, el_at, get. destruct j as [|[|j]]; [| |lia]; cbn; lra.
  - intros i j Hi Hj. unfold el_at, get. destruct i as [|[|i]]; [| |lia]; destruct j as [|[|j]]; try lia; cbn; lra.
Qed.
