(** The stack machine computes the value of the tree (continued). *)
From Coq Require Import ZArith Ascii String List Bool Lia.
From Verif Require Import M_Base M_Time M_Names M_Lex M_Compile M_Bytes M_Exec S_Lec S_Eval L_Compile L_Bytes L_Link L_Exec.
Import ListNotations.
Open Scope Z_scope.
Local Arguments Z.add : simpl never.
Local Arguments Z.sub : simpl never.
Local Arguments Z.mul : simpl never.
Local Arguments Z.of_nat : simpl never.
Local Arguments le : simpl never.

Section Run.
Context {A : arith} (E : env A) (real_bytes : str -> list Z) (names : list str) (curt : Z).
Notation F := (F A).
Notation exec := (exec A E names curt).
Notation start := (s_start (smp E)).
Notation bytes := (bytes real_bytes names start).
Notation fits := (fits E real_bytes).
Notation value := (value A E real_bytes curt).
Notation tainted := (tainted A).

(** [goes x t st st']: at period t, the piece of code [x] takes the stack [st] to [st']. *)
Definition goes (x : list Z) (t : Z) (st st' : list F) : Prop :=
  forall pre post e R, len pre + len x <= e ->
  (forall n, e - (len pre + len x) < Z.of_nat n -> exec n (pre ++ x ++ post) (len pre + len x) e t st' = R) ->
  forall n, e - len pre < Z.of_nat n -> exec n (pre ++ x ++ post) (len pre) e t st = R.

Lemma goes_nil t st : goes [] t st st.
Proof. intros pre post e R B K n N. rewrite len_nil, Z.add_0_r in *. apply K. lia. Qed.
Lemma goes_app x y t a b c : goes x t a b -> goes y t b c -> goes (x ++ y) t a c.
Proof.
  intros H K pre post e R B C n N. rewrite len_app in *. rewrite <- app_assoc. pose proof (len_pos y).
  apply H; [lia| |exact N]. clear n N. intros n N. rewrite app_assoc. rewrite <- len_app.
  apply K; [rewrite len_app; lia| |rewrite len_app; lia]. clear n N. intros n N. rewrite len_app in *.
  specialize (C n). rewrite <- !app_assoc in C. rewrite <- app_assoc. rewrite <- Z.add_assoc in *. apply C. lia.
Qed.
Lemma goes_sub x t v : goes x t [] [v] -> forall pre post n, len x < Z.of_nat n ->
  exec n (pre ++ x ++ post) (len pre) (len pre + len x) t [] = Ok v.
Proof.
  intros H pre post n N. apply H; [lia| |lia]. intros m M. destruct m as [|m]; [lia|]. cbn [M_Exec.exec].
  rewrite Z.leb_refl. reflexivity.
Qed.
(** One instruction. *)
Lemma goes_step x i t st st' : (forall rest, fetch (x ++ rest) = Ok (i, len x)) -> 0 < len x ->
  match i with
  | I_LONG z => st' = ofZ A z :: st
  | I_REAL b => st' = real A b :: st
  | I_COEF pos => exists nm v, name_at names pos = Some nm /\ scalar E nm = Some v /\ num A v = true /\ st' = v :: st
  | I_PERIOD _ pos => st' = ofZ A pos :: st
  | I_VAR pos _ ref p => exists nm vals, name_at names pos = Some nm /\ var_at E nm = Some vals /\
                           st' = read_var A E vals ref p t :: st
  | I_FN f nb => run_fn A f nb st = Ok st'
  | I_OP o => exists a b v s, st = b :: a :: s /\ st' = v :: s /\
      (if negb (num A a) || negb (num A b) then Ok (na A) else run_op A o a b) = Ok v
  | I_VAL v => st' = val_run A curt v t :: st
  | _ => False
  end -> goes x t st st'.
Proof.
  intros Fe P I pre post e R B K n N. pose proof (len_pos pre).
  destruct n as [|n]; [lia|]. cbn [M_Exec.exec]. replace (e <=? len pre) with false by (symmetry; apply Z.leb_gt; lia).
  replace (len pre <? 0) with false by (symmetry; apply Z.ltb_ge; lia).
  rewrite to_nat_len, skipn_len by reflexivity. rewrite Fe. cbn [rbind].
  assert (K' : exec n (pre ++ x ++ post) (len pre + len x) e t st' = R) by (apply K; lia). clear K.
  destruct i; try contradiction.
  - subst st'. exact K'.
  - subst st'. exact K'.
  - destruct I as (nm & v & -> & -> & Nu & ->). rewrite Nu. exact K'.
  - destruct I as (nm & v & -> & -> & ->). exact K'.
  - subst st'. exact K'.
  - rewrite I. exact K'.
  - destruct I as (a & b & v & s & -> & -> & V). cbn [pop rbind fst snd]. rewrite V. exact K'.
  - subst st'. exact K'.
Qed.

Lemma goes_tfn f nb x t v st st' : len x < 32768 ->
  (forall sub, (forall u w, goes x u [] [w] -> sub u = Ok w) -> tfn_run A f nb sub t st = Ok (v :: st')) ->
  goes ([tfn_code f; nb] ++ with_len x) t st (v :: st').
Proof.
  intros S H pre post e R B K n N. pose proof (len_pos pre). pose proof (len_pos x).
  assert (T : len ([tfn_code f; nb] ++ with_len x) = 4 + len x)
    by (unfold with_len; rewrite !len_app, len_le; change (len [tfn_code f; nb]) with 2; lia).
  rewrite T in *.
  destruct n as [|n]; [lia|]. cbn [M_Exec.exec]. replace (e <=? len pre) with false by (symmetry; apply Z.leb_gt; lia).
  replace (len pre <? 0) with false by (symmetry; apply Z.ltb_ge; lia).
  rewrite to_nat_len, skipn_len by reflexivity. unfold with_len at 1. cbn [app]. rewrite <- app_assoc, fetch_tfn by (unfold short_range; lia).
  cbn [rbind]. replace (len x <? 0) with false by (symmetry; apply Z.ltb_ge; lia).
  rewrite H.
  - cbn [rbind]. replace (len pre + 4 + len x) with (len pre + (4 + len x)) by lia. apply K. lia.
  - intros u w G. set (h := pre ++ [tfn_code f; nb] ++ le 2 (len x)).
    assert (Lh : len h = len pre + 4) by (unfold h; rewrite !len_app, len_le; change (len [tfn_code f; nb]) with 2; lia).
    replace (pre ++ tfn_code f :: nb :: with_len x ++ post) with (h ++ x ++ post)
      by (unfold h, with_len; rewrite <- !app_assoc; reflexivity).
    rewrite <- Lh. apply goes_sub; [exact G|]. lia.
Qed.
Lemma short_at_le pre z post : short_range z -> short_at (pre ++ le 2 z ++ post) (len pre) = Ok z.
Proof.
  intros H. unfold short_at. pose proof (len_pos pre). replace (len pre <? 0) with false by (symmetry; apply Z.ltb_ge; lia).
  rewrite to_nat_len, skipn_len by reflexivity. rewrite take_app by (rewrite le_length; reflexivity). cbn [rbind].
  rewrite short_le by assumption. reflexivity.
Qed.
Lemma goes_mtfn f nb nv parts t v st st' : len (concat (map with_len parts)) < 32768 ->
  length parts = Z.to_nat (min_args (MTFN f)) ->
  (forall s1 s2, (forall u w, goes (nth 0 parts []) u [] [w] -> s1 u = Ok w) ->
    (min_args (MTFN f) = 2 -> forall u w, goes (nth 1 parts []) u [] [w] -> s2 u = Ok w) ->
    mtfn_run A E f nb s1 s2 t st = Ok (v :: st')) ->
  goes ([mtfn_code f; nb; nv] ++ with_len (concat (map with_len parts))) t st (v :: st').
Proof.
  intros S Lp H pre post e R B K n N. set (c := concat (map with_len parts)) in *.
  pose proof (len_pos pre). pose proof (len_pos c).
  assert (T : len ([mtfn_code f; nb; nv] ++ with_len c) = 5 + len c)
    by (unfold with_len; rewrite !len_app, len_le; change (len [mtfn_code f; nb; nv]) with 3; lia).
  rewrite T in *.
  destruct n as [|n]; [lia|]. cbn [M_Exec.exec]. replace (e <=? len pre) with false by (symmetry; apply Z.leb_gt; lia).
  replace (len pre <? 0) with false by (symmetry; apply Z.ltb_ge; lia).
  rewrite to_nat_len, skipn_len by reflexivity. unfold with_len at 1. cbn [app]. rewrite <- app_assoc, fetch_mtfn by (unfold short_range; lia).
  cbn [rbind]. replace (len c <? 0) with false by (symmetry; apply Z.ltb_ge; lia).
  set (h := pre ++ [mtfn_code f; nb; nv] ++ le 2 (len c)).
  assert (Lh : len h = len pre + 5) by (unfold h; rewrite !len_app, len_le; change (len [mtfn_code f; nb; nv]) with 3; lia).
  set (code := pre ++ mtfn_code f :: nb :: nv :: with_len c ++ post).
  assert (Hc : code = h ++ c ++ post) by (unfold code, h, with_len; rewrite <- !app_assoc; reflexivity).
  assert (Fin : exec n code (len pre + 5 + len c) e t (v :: st') = R).
  { replace (len pre + 5 + len c) with (len pre + (5 + len c)) by lia. apply K. lia. }
  destruct parts as [|p1 [|p2 [|]]]; try (exfalso; destruct f; cbn in Lp; lia).
  - assert (M : min_args (MTFN f) = 1) by (destruct f; cbn in Lp |- *; lia).
    unfold c in *. cbn [map concat] in *. rewrite app_nil_r in *. unfold with_len in Hc at 1.
    assert (L1 : len (with_len p1) = 2 + len p1) by (unfold with_len; rewrite len_app, len_le; lia). pose proof (len_pos p1).
    rewrite Hc, <- Lh. rewrite <- !app_assoc. rewrite short_at_le by (unfold short_range; lia). cbn [rbind].
    rewrite M. change (1 =? 2) with false. cbn [rbind]. rewrite H.
    + cbn [rbind]. rewrite !app_assoc. rewrite <- !app_assoc. rewrite !app_assoc in Hc. rewrite <- !app_assoc in Hc. rewrite <- Hc, Lh. exact Fin.
    + intros u w G. cbn [nth] in G. rewrite (app_assoc h). replace (len h + 2) with (len (h ++ le 2 (len p1))) by (rewrite len_app, len_le; reflexivity).
      apply goes_sub; [exact G|lia].
    + intros Q. exfalso. lia.
  - assert (M : min_args (MTFN f) = 2) by (destruct f; cbn in Lp |- *; lia).
    unfold c in *. cbn [map concat] in *. rewrite app_nil_r in *.
    assert (L1 : len (with_len p1) = 2 + len p1) by (unfold with_len; rewrite len_app, len_le; lia).
    assert (L2 : len (with_len p2) = 2 + len p2) by (unfold with_len; rewrite len_app, len_le; lia).
    pose proof (len_pos p1). pose proof (len_pos p2). rewrite len_app in *.
    assert (Hc1 : code = h ++ le 2 (len p1) ++ p1 ++ with_len p2 ++ post)
      by (rewrite Hc; unfold with_len; rewrite <- !app_assoc; reflexivity).
    set (h1 := h ++ le 2 (len p1)). assert (Lh1 : len h1 = len pre + 7) by (unfold h1; rewrite len_app, len_le; lia).
    assert (Hc2 : code = h1 ++ p1 ++ with_len p2 ++ post) by (rewrite Hc1; unfold h1; rewrite <- !app_assoc; reflexivity).
    set (h2 := h1 ++ p1). assert (Lh2 : len h2 = len pre + 7 + len p1) by (unfold h2; rewrite len_app; lia).
    assert (Hc3 : code = h2 ++ le 2 (len p2) ++ p2 ++ post)
      by (rewrite Hc2; unfold h2, with_len; rewrite <- !app_assoc; reflexivity).
    set (h3 := h2 ++ le 2 (len p2)). assert (Lh3 : len h3 = len pre + 9 + len p1) by (unfold h3; rewrite len_app, len_le; lia).
    assert (Hc4 : code = h3 ++ p2 ++ post) by (rewrite Hc3; unfold h3; rewrite <- !app_assoc; reflexivity).
    replace (short_at code (len pre + 5)) with (Ok (len p1) : res Z)
      by (rewrite Hc1, <- Lh; symmetry; apply short_at_le; unfold short_range; lia).
    cbn [rbind]. rewrite M. change (2 =? 2) with true. cbv iota.
    replace (short_at code (len pre + 5 + 2 + len p1)) with (Ok (len p2) : res Z)
      by (replace (len pre + 5 + 2 + len p1) with (len h2) by lia; rewrite Hc3; symmetry; apply short_at_le; unfold short_range; lia).
    cbn [rbind]. rewrite H.
    + cbn [rbind]. exact Fin.
    + intros u w G. cbn [nth] in G. replace (len pre + 5 + 2) with (len h1) by lia. rewrite Hc2. apply goes_sub; [exact G|lia].
    + intros _ u w G. cbn [nth] in G. replace (len pre + 5 + 4 + len p1) with (len h3) by lia. rewrite Hc4. apply goes_sub; [exact G|lia].
Qed.

(** ** Functions of values *)
Lemma popn_rev (vs st : list F) n : n = length vs -> popn A n (rev vs ++ st) = Ok (rev vs, st).
Proof.
  intros ->. rewrite <- rev_length. generalize (rev vs). clear. intros l. induction l as [|x l IH]; [reflexivity|].
  cbn [length popn app pop rbind fst snd]. rewrite IH. reflexivity.
Qed.
Lemma tainted_app a b : tainted (a ++ b) = tainted a || tainted b.
Proof. unfold M_Exec.tainted. apply existsb_app. Qed.
Lemma tainted_rev a : tainted (rev a) = tainted a.
Proof.
  induction a as [|x a IH]; [reflexivity|]. cbn [rev]. rewrite tainted_app, IH. cbn. rewrite orb_false_r. apply orb_comm.
Qed.
Lemma all_num_tainted l : all_num A l = negb (tainted l).
Proof. induction l as [|x l IH]; [reflexivity|]. cbn. rewrite negb_orb, negb_involutive. f_equal. exact IH. Qed.
Lemma tainted_na l : tainted (na A :: l) = true.
Proof. cbn. rewrite num_na. reflexivity. Qed.

Lemma sum_num_spec l : sum_num A l = (fold_left (fun s v => add A s v) (filter (num A) l) (ofZ A 0), Z.of_nat (length (filter (num A) l))).
Proof.
  unfold sum_num. assert (G : forall l s n, fold_left (fun s v => if num A v then (add A (fst s) v, snd s + 1) else s) l (s, n) =
    (fold_left (fun s v => add A s v) (filter (num A) l) s, n + Z.of_nat (length (filter (num A) l)))).
  { clear l. induction l as [|v l IH]; intros s n; cbn [fold_left filter]; [cbn; f_equal; lia|].
    destruct (num A v); cbn [fst snd fold_left length]; rewrite IH; [f_equal; lia|reflexivity]. }
  rewrite G. f_equal.
Qed.
Lemma filter_rev (f : F -> bool) l : filter f (rev l) = rev (filter f l).
Proof.
  induction l as [|x l IH]; [reflexivity|]. cbn [rev filter]. rewrite filter_app, IH. cbn [filter].
  destruct (f x); cbn [rev]; [reflexivity|apply app_nil_r].
Qed.
Lemma std_spec m l : fold_left (fun s v => if num A v then (add A (fst s) (mul A (sub A v m) (sub A v m)), snd s + 1) else s) l (ofZ A 0, 0) =
  (fold_left (fun s v => add A s (mul A (sub A v m) (sub A v m))) (filter (num A) l) (ofZ A 0), Z.of_nat (length (filter (num A) l))).
Proof.
  assert (G : forall l s n, fold_left (fun s v => if num A v then (add A (fst s) (mul A (sub A v m) (sub A v m)), snd s + 1) else s) l (s, n) =
    (fold_left (fun s v => add A s (mul A (sub A v m) (sub A v m))) (filter (num A) l) s, n + Z.of_nat (length (filter (num A) l)))).
  { clear l. induction l as [|v l IH]; intros s n; cbn [fold_left filter]; [cbn; f_equal; lia|].
    destruct (num A v); cbn [fst snd fold_left length]; rewrite IH; [f_equal; lia|reflexivity]. }
  rewrite G. f_equal.
Qed.
Lemma rev_head (l : list F) d : l <> [] -> exists r, rev l = last l d :: r.
Proof.
  induction l as [|x l IH] using rev_ind; [contradiction|]. intros _. rewrite rev_app_distr, last_last. cbn. eauto.
Qed.
Lemma lprod_all l s : all_num A l = true ->
  fold_left (fun p v => if num A v then mul A p v else p) l s = fold_left (fun p v => mul A p v) l s.
Proof.
  revert s. induction l as [|x l IH]; intros s H; [reflexivity|]. cbn in H. apply andb_true_iff in H. destruct H as [H K].
  cbn [fold_left]. rewrite H. apply IH. exact K.
Qed.

Lemma fold_rev {S} (g : S -> F -> S) l i : fold_left g (rev l) i = fold_right (fun v s => g s v) i l.
Proof. rewrite <- fold_left_rev_right, rev_involutive. reflexivity. Qed.
Lemma fn_body_ok f vs v : fn_value A f vs = Ok v -> sound_func (FN f) = true ->
  negb (accept_na f) && negb (all_num A vs) = false ->
  min_args (FN f) <= Z.of_nat (length vs) <= max_args (FN f) -> fn_body A f (rev vs) = Ok v.
Proof.
  unfold fn_value. intros H S N L. rewrite N in H.
  assert (L0 : vs <> []) by (intros ->; destruct f; cbn in L; lia).
  destruct (rev_head vs (na A) L0) as [r Er].
  assert (W : forall X (a b : X), match vs with [] => a | _ => b end = b) by (destruct vs; [contradiction|reflexivity]).
  assert (Q : forall g i, fold_left g (rev vs) i = fold_right (fun (v : F) (s : F) => g s v) i vs) by (intros; apply fold_rev).
  destruct f; try discriminate S;
    try (destruct vs as [|x [|y [|]]]; cbn in L; try lia; try contradiction; exact H).
  - assert (H' : Ok (fold_right (fun v m => if lt A m v then v else m) (last vs (na A)) vs) = Ok v)
      by (destruct vs as [|? [|? []]]; first [contradiction|exact H]).
    rewrite <- H', <- Q. rewrite Er. reflexivity.
  - assert (H' : Ok (fold_right (fun v m => if lt A v m then v else m) (last vs (na A)) vs) = Ok v)
      by (destruct vs as [|? [|? []]]; first [contradiction|exact H]).
    rewrite <- H', <- Q. rewrite Er. reflexivity.
  - assert (H' : Ok (fold_right (fun v s => add A s v) (ofZ A 0) vs) = Ok v)
      by (destruct vs as [|? [|? []]]; first [contradiction|exact H]).
    cbn [fn_body]. rewrite Q. exact H'.
  - assert (H' : Ok (match filter (num A) vs with [] => na A
      | _ => dvd A (fold_right (fun v s => add A s v) (ofZ A 0) (filter (num A) vs)) (ofZ A (Z.of_nat (length (filter (num A) vs)))) end) = Ok v)
      by (destruct vs as [|? [|? []]]; first [contradiction|exact H]).
    cbn [fn_body]. unfold mean_num. rewrite sum_num_spec, filter_rev, rev_length, fold_rev. rewrite <- H'.
    destruct (filter (num A) vs) as [|x l]; [reflexivity|].
    replace (0 <? Z.of_nat (length (x :: l))) with true by (symmetry; apply Z.ltb_lt; cbn [length]; lia). reflexivity.
  - assert (H' : Ok (fold_right (fun v s => mul A s v) (ofZ A 1) vs) = Ok v)
      by (destruct vs as [|? [|? []]]; first [contradiction|exact H]).
    cbn [fn_body]. rewrite lprod_all by (rewrite all_num_tainted, tainted_rev, <- all_num_tainted; destruct (all_num A vs); [reflexivity|discriminate N]).
    rewrite Q. exact H'.
  - assert (H' : Ok (let xs := filter (num A) vs in let n := Z.of_nat (length xs) in
        let m := dvd A (fold_right (fun v s => add A s v) (ofZ A 0) xs) (ofZ A n) in
        match xs with [] | [_] => na A
        | _ => sqrt A (dvd A (fold_right (fun v s => add A s (mul A (sub A v m) (sub A v m))) (ofZ A 0) xs) (ofZ A (n - 1))) end) = Ok v)
      by (destruct vs as [|? [|? []]]; first [contradiction|exact H]).
    cbv zeta in H'. cbn [fn_body]. rewrite std_spec. unfold mean_num. rewrite sum_num_spec, filter_rev, rev_length, !fold_rev.
    rewrite <- H'. destruct (filter (num A) vs) as [|x [|y l]]; [reflexivity|reflexivity|].
    replace (0 <? Z.of_nat (length (x :: y :: l))) with true by (symmetry; apply Z.ltb_lt; cbn [length]; lia).
    replace (1 <? Z.of_nat (length (x :: y :: l))) with true by (symmetry; apply Z.ltb_lt; cbn [length]; lia). reflexivity.
Qed.
Lemma arity_ok f n : min_args (FN f) <= Z.of_nat n <= max_args (FN f) -> f <> Flcount -> arity f (Z.of_nat n) = n.
Proof.
  intros L C. destruct f; try (exfalso; apply C; reflexivity); cbn [min_args max_args arity] in *;
    rewrite ?Nat2Z.id; try lia; (assert (n = 1 \/ n = 2)%nat as [-> | ->] by lia; reflexivity).
Qed.
(** The arguments [vs'] on the stack differ from the values [vs] only above or below a NA. *)
Lemma fn_ok f vs vs' st v : fn_value A f vs = Ok v -> sound_func (FN f) = true ->
  min_args (FN f) <= Z.of_nat (length vs) <= max_args (FN f) -> length vs' = length vs ->
  vs' = vs \/ (accept_na f = false /\ tainted st || tainted vs = true /\ tainted vs' = true) ->
  exists v', run_fn A f (Z.of_nat (length vs)) (rev vs' ++ st) = Ok (v' :: st) /\
    (v' = v \/ (tainted st = true /\ v' = na A)).
Proof.
  intros H S L Le D. unfold run_fn.
  destruct (negb (accept_na f) && tainted (rev vs' ++ st)) eqn:T.
  - rewrite Nat2Z.id, popn_rev by auto. cbn [rbind snd]. exists (na A). split; [reflexivity|].
    apply andb_true_iff in T. destruct T as [T1 T2]. rewrite tainted_app, tainted_rev in T2.
    destruct (tainted st) eqn:Ts; [right; auto|left]. rewrite orb_false_r in T2.
    assert (Tv : tainted vs = true) by (destruct D as [->|(_ & D & _)]; [exact T2|exact D]).
    unfold fn_value in H. rewrite T1, all_num_tainted, Tv in H. cbn in H. congruence.
  - assert (vs' = vs) as ->.
    { destruct D as [D|(D1 & D2 & D3)]; [exact D|]. rewrite D1, tainted_app, tainted_rev, D3 in T. discriminate T. }
    assert (N : negb (accept_na f) && negb (all_num A vs) = false).
    { rewrite tainted_app, tainted_rev in T. rewrite all_num_tainted, negb_involutive.
      destruct (negb (accept_na f)); [|reflexivity]. cbn [andb] in *. destruct (tainted vs); [discriminate T|reflexivity]. }
    assert (C : f <> Flcount) by (intros ->; discriminate S).
    exists v. split; [|left; reflexivity]. pose proof (fn_body_ok f vs v H S N L) as B.
    pose proof (arity_ok f (length vs) L C) as Ar.
    destruct f; try (exfalso; apply C; reflexivity); rewrite Ar;
      rewrite popn_rev by reflexivity; cbn [rbind fst snd]; rewrite B; reflexivity.
Qed.

(** ** Trees *)
Definition ready (e : ex) : Prop := well_made real_bytes e /\ size e < 32768 /\ named names e /\ shape e.
Definition runs (e : ex) : Prop :=
  forall p ms t v st, steady p ms e = true -> ready e -> fits ms e -> value ms e t = Ok v ->
  (tainted st = true -> p = true) ->
  exists v', goes (bytes true ms e) t st (v' :: st) /\ (v' = v \/ (tainted st = true /\ calm e = false /\ v' = na A)).
Definition ok_arg (e : ex) (x : list suffix * role) : bool :=
  match x with
  | (m, Now p q) => steady p m e && (negb q || calm e)
  | (m, Series apart) => steady false m e && no_mtfn e && (negb apart || undated m e)
  end.
Notation all_fit args ml := (fold_right and True (zip (fun e m => fits m e) args ml)).
Notation all_ok args ml rl := (forallb (fun b => b) (zip ok_arg args (combine ml rl))).
Notation parts_of args ml := (zip (fun e m => bytes true m e) args ml).
Notation values_of args ml := (zip (fun e m => value m e) args ml).

Lemma steady_pre p ms f e : steady p ms (EPre f e) =
  sound_func f && match f with FN _ => true | _ => delimited e end && all_ok [e] [ms] (roles f 1 p).
Proof. reflexivity. Qed.
Lemma steady_app p ms f args sfx : steady p ms (EApp f args sfx) =
  sound_func f && all_ok args (mods ms sfx (length args)) (roles f (length args) p).
Proof. reflexivity. Qed.

Lemma quiet_run args : Forall runs args -> Forall ready args -> forall ml t vs st, length ml = length args ->
  all_fit args ml -> all_ok args ml (repeat (Now true true) (length args)) = true ->
  mapM (fun s => s t) (values_of args ml) = Ok vs -> goes (concat (parts_of args ml)) t st (rev vs ++ st).
Proof.
  induction 1 as [|e l Re Rl IH]; intros Y ml t vs st L Fi O V; destruct ml as [|m ml]; try discriminate L.
  - injection V as <-. apply goes_nil.
  - inversion Y; subst. cbn [zip fold_right] in Fi. destruct Fi as [F1 F2].
    cbn [length repeat combine zip forallb ok_arg] in O. apply andb_true_iff in O. destruct O as [O1 O2].
    apply andb_true_iff in O1. destruct O1 as [O1 O3]. cbn [negb orb] in O3.
    cbn [zip mapM] in V. destruct (value m e t) as [v| |] eqn:Ve; try discriminate V. cbn [rbind] in V.
    destruct (mapM (fun s => s t) (values_of l ml)) as [vs'| |] eqn:Vs; try discriminate V. cbn [rbind] in V. injection V as <-.
    destruct (Re true m t v st O1 H1 F1 Ve (fun _ => eq_refl)) as (v' & G & [-> | (_ & C & _)]); [|congruence].
    cbn [zip concat rev]. eapply goes_app; [exact G|]. rewrite <- app_assoc. cbn [app].
    apply (IH H2 ml t vs' (v :: st)); auto.
Qed.
Lemma loud_run args q : Forall runs args -> Forall ready args -> forall ml t vs st, length ml = length args ->
  all_fit args ml -> all_ok args ml (repeat (Now true q) (length args)) = true ->
  mapM (fun s => s t) (values_of args ml) = Ok vs ->
  exists vs', goes (concat (parts_of args ml)) t st (rev vs' ++ st) /\ length vs' = length vs /\
    (vs' = vs \/ (q = false /\ tainted st || tainted vs = true /\ tainted vs' = true)).
Proof.
  induction 1 as [|e l Re Rl IH]; intros Y ml t vs st L Fi O V; destruct ml as [|m ml]; try discriminate L.
  - injection V as <-. exists []. split; [apply goes_nil|]. split; [reflexivity|left; reflexivity].
  - inversion Y; subst. cbn [zip fold_right] in Fi. destruct Fi as [F1 F2].
    cbn [length repeat combine zip forallb ok_arg] in O. apply andb_true_iff in O. destruct O as [O1 O2].
    apply andb_true_iff in O1. destruct O1 as [O1 O3].
    cbn [zip mapM] in V. destruct (value m e t) as [v| |] eqn:Ve; try discriminate V. cbn [rbind] in V.
    destruct (mapM (fun s => s t) (values_of l ml)) as [vs1| |] eqn:Vs; try discriminate V. cbn [rbind] in V. injection V as <-.
    destruct (Re true m t v st O1 H1 F1 Ve (fun _ => eq_refl)) as (v' & G & D).
    injection L as L. destruct (IH H2 ml t vs1 (v' :: st) L F2 O2 Vs) as (vs1' & G' & Le & D').
    exists (v' :: vs1'). split; [|split; [cbn [length]; congruence|]].
    + cbn [zip concat rev]. eapply goes_app; [exact G|]. rewrite <- app_assoc. exact G'.
    + destruct D as [-> | (D1 & D2 & ->)].
      * destruct D' as [-> | (Q & D2 & D3)]; [left; reflexivity|right]. split; [exact Q|]. split.
        -- change (tainted (v :: st)) with (negb (num A v) || tainted st) in D2.
           change (tainted (v :: vs1)) with (negb (num A v) || tainted vs1).
           destruct (num A v), (tainted st); cbn in *; auto.
        -- change (tainted (v :: vs1')) with (negb (num A v) || tainted vs1'). rewrite D3. apply orb_true_r.
      * right. split; [destruct q; [cbn in O3; congruence|reflexivity]|]. split; [rewrite D1; reflexivity|apply tainted_na].
Qed.

Lemma combine_app {X Y} (a a' : list X) (b b' : list Y) : length a = length b -> combine (a ++ a') (b ++ b') = combine a b ++ combine a' b'.
Proof. revert b. induction a as [|x a IH]; intros [|y b] H; try discriminate; [reflexivity|]. cbn in *. f_equal. apply IH. lia. Qed.
Lemma zip_app {X Y W} (g : X -> Y -> W) a a' b b' : length a = length b -> zip g (a ++ a') (b ++ b') = zip g a b ++ zip g a' b'.
Proof. revert b. induction a as [|x a IH]; intros [|y b] H; try discriminate; [reflexivity|]. cbn in *. f_equal. apply IH. lia. Qed.
Lemma zip_len {X Y W} (g : X -> Y -> W) a b : length a = length b -> length (zip g a b) = length a.
Proof. revert b. induction a as [|x a IH]; intros [|y b] H; try discriminate; [reflexivity|]. cbn in *. f_equal. apply IH. lia. Qed.
Lemma fold_and_app (a b : list Prop) : fold_right and True (a ++ b) <-> fold_right and True a /\ fold_right and True b.
Proof. induction a as [|x a IH]; cbn; [tauto|]. rewrite IH. tauto. Qed.
Lemma mapM_len {X Y} (g : X -> res Y) l vs : mapM g l = Ok vs -> length vs = length l.
Proof.
  revert vs. induction l as [|x l IH]; intros vs; cbn [mapM]; [intros [= <-]; reflexivity|].
  destruct (g x); try discriminate. cbn [rbind]. destruct (mapM g l); try discriminate. intros [= <-]. cbn. f_equal. apply IH. reflexivity.
Qed.
Lemma parts_len args ml : Forall ready args -> length ml = length args -> map len (parts_of args ml) = map size args.
Proof.
  intros H. revert ml. induction H as [|e l R _ IH]; intros [|m ml] L; try discriminate; [reflexivity|].
  cbn [zip map]. rewrite IH by (cbn in L; lia). rewrite bytes_len by apply R. reflexivity.
Qed.

(** A series on an empty stack. *)
Lemma series_run e apart m : runs e -> ready e -> fits m e -> ok_arg e (m, Series apart) = true ->
  forall u w, value m e u = Ok w -> goes (bytes true m e) u [] [w].
Proof.
  intros R Y Fi O u w V. cbn [ok_arg] in O. rewrite !andb_true_iff in O. destruct O as [[O _] _].
  destruct (R false m u w [] O Y Fi V) as (v' & G & [-> | (T & _)]); [discriminate|exact G|discriminate T].
Qed.

Lemma func_run f args ml p t v st : Forall runs args -> Forall ready args -> length ml = length args -> all_fit args ml ->
  min_args f <= Z.of_nat (length args) <= max_args f -> (1 <= length args)%nat -> (bodies f <= length args)%nat ->
  sound_func f = true -> all_ok args ml (roles f (length args) p) = true ->
  apply A E f (values_of args ml) t = Ok v -> sumZ (map size args) + func_size f < 32768 ->
  (tainted st = true -> p = true) ->
  exists v', goes (func_bytes f (parts_of args ml)) t st (v' :: st) /\
    (v' = v \/ (tainted st = true /\ match f with FN _ => True | _ => False end /\ v' = na A)).
Proof.
  intros R Y L Fi N N1 B S O V Z0 Ta.
  unfold apply in V. rewrite zip_len in V by auto. unfold func_bytes. rewrite zip_len by auto.
  destruct f as [f|f|f].
  - (* functions *)
    cbn [bodies] in V. rewrite Nat.sub_0_r, firstn_all2 in V by (rewrite zip_len by auto; lia).
    destruct (mapM (fun s => s t) (values_of args ml)) as [vs| |] eqn:Vs; try discriminate V. cbn [rbind] in V.
    assert (Lv : length vs = length args) by (rewrite (mapM_len _ _ _ Vs); apply zip_len; auto).
    assert (Q : exists vs', goes (concat (parts_of args ml)) t st (rev vs' ++ st) /\ length vs' = length vs /\
      (vs' = vs \/ (accept_na f = false /\ tainted st || tainted vs = true /\ tainted vs' = true))).
    { destruct args as [|e l]; [cbn in N1; lia|]. destruct ml as [|m ml]; [discriminate L|].
      inversion R as [|? ? Re Rl]; subst. inversion Y as [|? ? Ye Yl]; subst. cbn [zip fold_right] in Fi. destruct Fi as [F1 F2].
      cbn [length roles combine zip forallb ok_arg] in O. apply andb_true_iff in O. destruct O as [O1 O2].
      apply andb_true_iff in O1. destruct O1 as [O1 O3].
      replace (Datatypes.S (length l) - 1)%nat with (length l) in O2 by lia.
      cbn [zip mapM] in Vs. destruct (value m e t) as [w| |] eqn:Ve; try discriminate Vs. cbn [rbind] in Vs.
      destruct (mapM (fun s => s t) (values_of l ml)) as [vs1| |] eqn:Vs1; try discriminate Vs. cbn [rbind] in Vs. injection Vs as <-.
      destruct (Re p m t w st O1 Ye F1 Ve Ta) as (w' & G & D). injection L as L.
      destruct (loud_run l (accept_na f) Rl Yl ml t vs1 (w' :: st) L F2 O2 Vs1) as (vs1' & G' & Le & D').
      exists (w' :: vs1'). split; [|split; [cbn [length]; congruence|]].
      + cbn [zip concat rev]. eapply goes_app; [exact G|]. rewrite <- app_assoc. exact G'.
      + destruct D as [-> | (D1 & D2 & ->)].
        * destruct D' as [-> | (Q & D2 & D3)]; [left; reflexivity|right]. split; [exact Q|]. split.
          -- change (tainted (w :: st)) with (negb (num A w) || tainted st) in D2.
             change (tainted (w :: vs1)) with (negb (num A w) || tainted vs1).
             destruct (num A w), (tainted st); cbn in *; auto.
          -- change (tainted (w :: vs1')) with (negb (num A w) || tainted vs1'). rewrite D3. apply orb_true_r.
        * right. rewrite (Ta D1), D2, orb_false_r, andb_true_r in O3.
          split; [destruct (accept_na f); [discriminate O3|reflexivity]|]. split; [rewrite D1; reflexivity|apply tainted_na]. }
    destruct Q as (vs' & G & Le & D). rewrite <- Lv in N.
    destruct (fn_ok f vs vs' st v V S N Le D) as (v' & Rf & D').
    exists v'. split; [|destruct D' as [D' | (D1 & D2)]; auto].
    eapply goes_app; [exact G|]. apply (goes_step _ (I_FN f (Z.of_nat (length args)))).
    + intros rest. cbn [app]. apply fetch_fn.
    + rewrite !len_cons, len_nil. lia.
    + rewrite <- Lv. exact Rf.
  - (* time functions *)
    cbn [bodies] in *. set (k := (length args - 1)%nat) in *.
    assert (SA : exists a1 b m1 mb, args = a1 ++ [b] /\ ml = m1 ++ [mb] /\ length a1 = length m1 /\ length a1 = k).
    { destruct (exists_last (l := args)) as (a1 & b & ->); [intros ->; cbn in N1; lia|].
      destruct (exists_last (l := ml)) as (m1 & mb & ->); [intros ->; rewrite app_length in L; cbn in L; lia|].
      exists a1, b, m1, mb. unfold k.
      pose proof (app_length a1 [b]). pose proof (app_length m1 [mb]). cbn [length] in *. repeat split; lia. }
    destruct SA as (a1 & b & m1 & mb & -> & -> & La & Lk).
    apply Forall_app in R. destruct R as [R1 R2]. apply Forall_app in Y. destruct Y as [Y1 Y2].
    inversion R2; subst. inversion Y2; subst.
    rewrite zip_app in Fi by assumption. apply fold_and_app in Fi. destruct Fi as [F1 [F2 _]].
    cbn [roles] in O. fold k in O. rewrite combine_app in O by (rewrite repeat_length; lia).
    rewrite zip_app in O by (rewrite combine_length, repeat_length; lia). rewrite forallb_app in O. apply andb_true_iff in O.
    destruct O as [O1 O2]. cbn [combine zip forallb] in O2. rewrite andb_true_r in O2.
    rewrite zip_app in V by assumption. rewrite zip_app by assumption. cbn [zip] in V |- *.
    rewrite firstn_len in V by (rewrite zip_len by assumption; lia).
    destruct (mapM (fun s => s t) (values_of a1 m1)) as [vs| |] eqn:Vs; try discriminate V. cbn [rbind] in V.
    rewrite app_nth2 in V by (rewrite zip_len by assumption; lia). rewrite zip_len, Lk, Nat.sub_diag in V by assumption. cbn [nth] in V.
    rewrite firstn_len, skipn_len by (rewrite zip_len by assumption; lia). cbn [concat]. rewrite app_nil_r.
    exists v. split; [|left; reflexivity].
    rewrite <- Lk in O1.
    eapply goes_app; [apply (quiet_run a1 R1 Y1 m1 t vs st); auto|].
    assert (Lvs : length vs = k) by (rewrite (mapM_len _ _ _ Vs), zip_len by assumption; lia).
    apply goes_tfn.
    + rewrite bytes_len by apply H3. apply H3.
    + intros sub Hs. replace (Z.of_nat (length (a1 ++ [b]))) with (Z.of_nat (length vs + 1))
        by (rewrite app_length; cbn [length]; lia).
      apply (tfn_ok (s1 := value mb b) (s1' := sub)); [|exact V].
      intros u w W. apply Hs. eapply series_run; eassumption.
  - (* functions of several series *)
    cbn [bodies] in *. set (nv := Z.to_nat (min_args (MTFN f))) in *. set (k := (length args - nv)%nat) in *.
    set (a1 := firstn k args) in *. set (a2 := skipn k args). set (m1 := firstn k ml). set (m2 := skipn k ml).
    assert (Ha : args = a1 ++ a2) by (symmetry; apply firstn_skipn).
    assert (Hm : ml = m1 ++ m2) by (symmetry; apply firstn_skipn).
    assert (La : length a1 = k) by (unfold a1; rewrite firstn_length; lia).
    assert (Lm : length m1 = k) by (unfold m1; rewrite firstn_length; lia).
    assert (La2 : length a2 = nv) by (unfold a2; rewrite skipn_length; lia).
    assert (Lm2 : length m2 = nv) by (unfold m2; rewrite skipn_length; lia).
    set (n := length args) in *. clearbody a1 a2 m1 m2. 
    rewrite Ha, Hm in *.
    apply Forall_app in R. destruct R as [R1 R2]. apply Forall_app in Y. destruct Y as [Y1 Y2].
    rewrite zip_app in Fi by lia. apply fold_and_app in Fi. destruct Fi as [F1 F2].
    cbn [roles bodies] in O. fold nv k in O. rewrite combine_app in O by (rewrite repeat_length; lia).
    rewrite zip_app in O by (rewrite combine_length, repeat_length; lia). rewrite forallb_app in O. apply andb_true_iff in O.
    destruct O as [O1 O2].
    rewrite zip_app in V by lia. rewrite zip_app by lia.
    rewrite firstn_len in V by (rewrite zip_len by lia; lia).
    destruct (mapM (fun s => s t) (values_of a1 m1)) as [vs| |] eqn:Vs; try discriminate V. cbn [rbind] in V.
    rewrite !app_nth2 in V by (rewrite zip_len by lia; lia). rewrite zip_len, La, Nat.sub_diag in V by lia.
    replace (k + 1 - k)%nat with 1%nat in V by lia.
    rewrite firstn_len, skipn_len by (rewrite zip_len by lia; lia).
    exists v. split; [|left; reflexivity].
    rewrite <- La in O1.
    eapply goes_app; [apply (quiet_run a1 R1 Y1 m1 t vs st); auto; lia|].
    apply goes_mtfn.
    + rewrite with_lens_len, parts_len by (auto; lia). rewrite zip_len by lia.
      rewrite map_app, sumZ_app in Z0. pose proof (sizes_pos a1). cbn [func_size] in Z0.
      pose proof (min_args_pos (MTFN f)). unfold nv in *. lia.
    + rewrite zip_len by lia. exact La2.
    + intros s1 s2 Hs1 Hs2.
      assert (nv = 1 \/ nv = 2)%nat as [Nv | Nv] by (unfold nv; destruct f; cbn; auto).
      * destruct a2 as [|b1 [|]]; try (cbn in La2; lia). destruct m2 as [|n1 [|]]; try (cbn in Lm2; lia).
        cbn [zip nth] in *. rewrite Nv in O2. cbn [repeat combine zip forallb] in O2. rewrite andb_true_r in O2.
        inversion R2; subst. inversion Y2; subst.
        apply (mtfn_ok (s1 := value n1 b1) (s2 := fun _ => UB) (s1' := s1) (s2' := s2)); [| |exact V].
        -- intros u w W. apply Hs1. eapply series_run; try eassumption. apply F2.
        -- intros u w W. discriminate W.
      * destruct a2 as [|b1 [|b2 [|]]]; try (cbn in La2; lia). destruct m2 as [|n1 [|n2 [|]]]; try (cbn in Lm2; lia).
        cbn [zip nth] in *. rewrite Nv in O2. cbn [repeat combine zip forallb] in O2. rewrite andb_true_r in O2.
        apply andb_true_iff in O2. destruct O2 as [O2 O3]. destruct F2 as (F2 & F3 & _).
        inversion R2 as [|? ? Rb1 R3]; subst. inversion R3 as [|? ? Rb2 _]; subst.
        inversion Y2 as [|? ? Yb1 Y3]; subst. inversion Y3 as [|? ? Yb2 _]; subst.
        apply (mtfn_ok (s1 := value n1 b1) (s2 := value n2 b2) (s1' := s1) (s2' := s2)); [| |exact V].
        -- intros u w W. apply Hs1. eapply series_run; eassumption.
        -- intros u w W. apply Hs2; [unfold nv in Nv; destruct f; cbn in *; lia|]. eapply series_run; eassumption.
Qed.
End Run.
