(** Lemmas on the aggregation of variables. *)
From Coq Require Import ZArith Ascii String List Bool Lia.
From Verif Require Import M_Base M_Names M_Lex L_Names M_Exec M_Kdb L_Kdb M_Aggr S_Aggr.
Import ListNotations.
Open Scope Z_scope.

(** * The pattern *)
Lemma code_is x y : (code x =? code y) = Ascii.eqb x y.
Proof.
  destruct (Ascii.eqb_spec x y) as [->|N]; [apply Z.eqb_refl|]. apply Z.eqb_neq. intros H. now apply code_inj in H.
Qed.
Lemma code0 x : (code x =? 0) = Ascii.eqb x zero.
Proof. exact (code_is x zero). Qed.

Lemma no_open_end_cons x p : no_open_end (x :: p) -> no_open_end p.
Proof. intros H a y b -> E. exact (H (x :: a) y b eq_refl E). Qed.

Lemma renamed_nil_r c l r : renamed c l [] r <-> l = [] /\ r = [].
Proof. split; [intros H; now inversion H|intros [-> ->]; constructor]. Qed.
Lemma renamed_nil_l c n r : renamed c [] n r <-> n = [] /\ r = [].
Proof. split; [intros H; now inversion H|intros [-> ->]; constructor]. Qed.

Lemma aggr_loop_iff c p : no_open_end p -> forall n i r, aggr_loop c p n i = Some r <-> renamed c (items i p) n r.
Proof.
  induction p as [|x p IH]; intros HO n i r.
  { cbn. rewrite renamed_nil_l. destruct n; split; [intros H; inversion H; auto|intros [_ ->]; auto|discriminate|intros [? _]; discriminate]. }
  pose proof (no_open_end_cons _ _ HO) as HO'. specialize (IH HO').
  cbn [aggr_loop items].
  change 93 with (code "]"). change 41 with (code ")"). change 40 with (code "("). change 91 with (code "[").
  change 63 with (code "?"). rewrite !code_is.
  destruct n as [|y n].
  - destruct (Ascii.eqb_spec x "(") as [->|N1].
    { cbn. split; [discriminate|]. rewrite renamed_nil_r. intros [H _].
      now apply (HO [] _ p eq_refl (or_introl eq_refl)) in H. }
    destruct (Ascii.eqb_spec x ")") as [->|N2]; [cbn; apply IH|].
    destruct (Ascii.eqb_spec x "[") as [->|N3].
    { cbn. split; [discriminate|]. rewrite renamed_nil_r. intros [H _].
      now apply (HO [] _ p eq_refl (or_intror eq_refl)) in H. }
    destruct (Ascii.eqb_spec x "]") as [->|N4]; [cbn; apply IH|].
    cbn. split; [discriminate|]. destruct (Ascii.eqb x "?"); intros H; inversion H.
  - destruct (Ascii.eqb_spec x "(") as [->|N1]; [cbn; apply IH|].
    destruct (Ascii.eqb_spec x ")") as [->|N2]; [cbn; apply IH|].
    destruct (Ascii.eqb_spec x "[") as [->|N3]; [cbn; apply IH|].
    destruct (Ascii.eqb_spec x "]") as [->|N4]; [cbn; apply IH|].
    cbn [orb]. destruct (Ascii.eqb_spec x "?") as [->|N5].
    + destruct i.
      * destruct (Ascii.eqb_spec y c) as [->|N6].
        { split; [discriminate|]. intros H; inversion H; congruence. }
        destruct (aggr_loop c p n true) as [o|] eqn:E; cbn.
        -- apply IH in E. split; [intros H; inversion H; now constructor|]. intros H. inversion H; subst.
           apply IH in E. match goal with H : renamed _ (items _ _) _ _ |- _ => apply IH in H; rewrite E in H; now inversion H end.
        -- split; [discriminate|]. intros H; inversion H; subst.
           match goal with H : renamed _ (items _ _) _ _ |- _ => apply IH in H end. congruence.
      * destruct (aggr_loop c p n false) as [o|] eqn:E; cbn.
        -- apply IH in E. split; [intros H; inversion H; now constructor|]. intros H. inversion H; subst.
           apply IH in E. match goal with H : renamed _ (items _ _) _ _ |- _ => apply IH in H; rewrite E in H; now inversion H end.
        -- split; [discriminate|]. intros H; inversion H; subst.
           match goal with H : renamed _ (items _ _) _ _ |- _ => apply IH in H end. congruence.
    + destruct (Ascii.eqb_spec x y) as [->|N6].
      * destruct (aggr_loop c p n i) as [o|] eqn:E; cbn.
        -- apply IH in E. split; [intros H; inversion H; now constructor|]. intros H. inversion H; subst.
           apply IH in E. match goal with H : renamed _ (items _ _) _ _ |- _ => apply IH in H; rewrite E in H; now inversion H end.
        -- split; [discriminate|]. intros H; inversion H; subst.
           match goal with H : renamed _ (items _ _) _ _ |- _ => apply IH in H end. congruence.
      * split; [discriminate|]. intros H; inversion H; congruence.
Qed.

Lemma squeeze_visible s : forall r, visible s r <-> squeeze (c_string s) = r.
Proof.
  assert (HF : forall a, squeeze a = filter (fun x => negb (Ascii.eqb x " ")) a).
  { intros a. unfold squeeze. apply filter_ext. intros x. f_equal. exact (code_is x " "). }
  intros r. rewrite HF. clear HF. unfold visible. split.
  - intros (a & b & -> & HA & HB & ->). f_equal. induction a as [|x a IH]; cbn [app].
    + destruct HB as [->|(b' & ->)]; reflexivity.
    + inversion HA; subst. cbn [c_string]. destruct (code x =? 0) eqn:E; [apply Z.eqb_eq in E; congruence|].
      f_equal. now apply IH.
  - intros <-. induction s as [|x s IH].
    + exists [], []. repeat split; auto.
    + cbn [c_string]. destruct (code x =? 0) eqn:E.
      * exists [], (x :: s). repeat split; auto. right. exists s. f_equal. rewrite code0 in E. now apply Ascii.eqb_eq.
      * destruct IH as (a & b & E1 & HA & HB & E2). exists (x :: a), b. subst s. repeat split; auto.
        -- constructor; auto. now apply Z.eqb_neq.
        -- cbn. destruct (negb _); cbn; now rewrite E2.
Qed.

Lemma belongs_iff c p n k : no_open_end p ->
  (belongs c p n k <-> exists m, aggr_name c p n = Some m /\ k = to_key UPPER_CASE m).
Proof.
  intros HO. unfold belongs, aggr_name, to_key. split.
  - intros (r & m & HR & HV & ->). apply aggr_loop_iff in HR; auto. rewrite HR. cbn. apply squeeze_visible in HV. exists m. now rewrite HV.
  - intros (m & E & ->). destruct (aggr_loop c p n false) as [r|] eqn:EL; [|discriminate]. cbn in E.
    apply aggr_loop_iff in EL; auto. exists r, m. repeat split; auto. apply squeeze_visible. congruence.
Qed.
Lemma belongs_fun c p n k k' : no_open_end p -> belongs c p n k -> belongs c p n k' -> k = k'.
Proof. intros HO H H'. apply belongs_iff in H, H'; auto. destruct H as (? & ? & ->), H' as (? & ? & ->). congruence. Qed.

(** * The members of a group *)
Section Members.
Context {V : Type}.
Variables (c : ascii) (p : str).
Fixpoint group (k : str) (l : list (str * V)) : list V :=
  match l with
  | [] => []
  | (n, v) :: l' =>
    match aggr_name c p n with
    | Some m => if str_eqb k (to_key UPPER_CASE m) then v :: group k l' else group k l'
    | None => group k l'
    end
  end.
Lemma group_members k l (HO : no_open_end p) : forall r, members c p k l r <-> group k l = r.
Proof.
  induction l as [|[n v] l IH]; intros r; cbn [group].
  - split; [intros H; now inversion H|intros <-; constructor].
  - pose proof (belongs_iff c p n k HO) as B. destruct (aggr_name c p n) as [m|].
    + destruct (str_eqb k (to_key UPPER_CASE m)) eqn:E.
      * apply str_eqb_iff in E. assert (belongs c p n k) by (apply B; eauto). split.
        -- intros H'. inversion H'; subst; [f_equal; now apply IH|contradiction].
        -- intros <-. constructor; auto. now apply IH.
      * assert (~ belongs c p n k).
        { intros HB. apply B in HB. destruct HB as (m' & HM & ->). assert (m = m') by congruence. subst.
          rewrite str_eqb_refl in E. discriminate. }
        split.
        -- intros H'. inversion H'; subst; [contradiction|now apply IH].
        -- intros H'. apply members_out; auto. now apply IH.
    + assert (~ belongs c p n k) by (intros HB; apply B in HB; destruct HB as (? & ? & _); discriminate).
      split.
      * intros H'. inversion H'; subst; [contradiction|now apply IH].
      * intros H'. apply members_out; auto. now apply IH.
Qed.
End Members.

(** * The results *)
Section Results.
Variable A : arith.
Variable method : Z.
Variables (c : ascii) (p : str).
Notation val := (F A).
Notation comb := (combine A method).
Notation aggr := (aggr_all A method c p).

Definition fold_group (o : option (list val)) (l : list (list val)) : option (list val) :=
  match o, l with
  | Some x, _ => Some (fold_left comb l x)
  | None, [] => None
  | None, x :: l' => Some (fold_left comb l' x)
  end.
Lemma aggr_find k l : forall ndb t np ndb' t' np', aggr l ndb t np = Ok (ndb', t', np') ->
  find k ndb' = fold_group (find k ndb) (group c p k l).
Proof.
  induction l as [|[n e] l IH]; intros ndb t np ndb' t' np'; cbn [aggr_all group].
  { intros H. assert (ndb' = ndb) as -> by congruence. now destruct (find k ndb). }
  destruct (aggr_name c p n) as [m|]; [|apply IH].
  destruct (find (to_key UPPER_CASE m) ndb) as [x|] eqn:EF.
  - destruct (next_count t _) as [t2| |]; cbn [rbind]; try discriminate. intros H. apply IH in H. rewrite H.
    rewrite find_put. destruct (str_eqb k (to_key UPPER_CASE m)) eqn:E; [|reflexivity].
    apply str_eqb_iff in E. subst k. rewrite EF. reflexivity.
  - destruct (check_name _ _) as [[]| |]; cbn [rbind]; try discriminate.
    destruct (first_count t _) as [t2| |]; cbn [rbind]; try discriminate. intros H. apply IH in H. rewrite H.
    rewrite find_put. destruct (str_eqb k (to_key UPPER_CASE m)) eqn:E; [|reflexivity].
    apply str_eqb_iff in E. subst k. rewrite EF. reflexivity.
Qed.
Lemma aggr_sorted l : forall ndb t np ndb' t' np', aggr l ndb t np = Ok (ndb', t', np') -> sorted ndb -> sorted ndb'.
Proof.
  induction l as [|[n e] l IH]; intros ndb t np ndb' t' np'; cbn [aggr_all].
  { intros H. now assert (ndb' = ndb) as -> by congruence. }
  destruct (aggr_name c p n) as [m|]; [|apply IH].
  destruct (find _ ndb) as [x|] eqn:EF.
  - destruct (next_count t _) as [t2| |]; cbn [rbind]; try discriminate. intros H HS. apply IH in H; auto.
    now apply sorted_put.
  - destruct (check_name _ _) as [[]| |]; cbn [rbind]; try discriminate.
    destruct (first_count t _) as [t2| |]; cbn [rbind]; try discriminate. intros H HS. apply IH in H; auto.
    now apply sorted_put.
Qed.

(** ** Period by period *)
Lemma combine_length n : forall e, length (comb n e) = length n.
Proof. induction n as [|x n IH]; intros [|y e]; cbn; auto. Qed.
Lemma combine_nth n : forall e i, (i < length n)%nat -> (i < length e)%nat ->
  nth i (comb n e) (na A) = combine_one A method (nth i n (na A)) (nth i e (na A)).
Proof. induction n as [|x n IH]; intros [|y e] [|i]; cbn; try lia; auto. intros. apply IH; lia. Qed.
Lemma fold_length l : forall x, length (fold_left comb l x) = length x.
Proof. induction l as [|e l IH]; intros x; cbn; auto. now rewrite IH, combine_length. Qed.
Lemma fold_nth i l : forall x, (i < length x)%nat -> (forall e, In e l -> (i < length e)%nat) ->
  nth i (fold_left comb l x) (na A) = fold_left (combine_one A method) (map (fun e => nth i e (na A)) l) (nth i x (na A)).
Proof.
  induction l as [|e l IH]; intros x HX HL; cbn; auto. rewrite IH.
  - f_equal. apply combine_nth; auto. apply HL. now left.
  - now rewrite combine_length.
  - intros e' H. apply HL. now right.
Qed.
Lemma fold_one_num l : forall x, (forall y, In y l -> num A y = true) ->
  fold_left (combine_one A method) l x = fold_left (if method =? 1 then mul A else M_Exec.add A) l x.
Proof.
  induction l as [|y l IH]; intros x H; cbn; auto. rewrite IH by (intros z Hz; apply H; now right).
  f_equal. unfold combine_one. rewrite (H y) by now left. now destruct (method =? 1).
Qed.

Lemma group_in k (l : list (str * list val)) v : In v (group c p k l) -> exists n, In (n, v) l.
Proof.
  induction l as [|[n e] l IH]; cbn; [tauto|].
  destruct (aggr_name c p n) as [m|]; [destruct (str_eqb k _)|]; cbn; intros H;
    try (destruct H as [->|H]; [exists n; now left|]); destruct (IH H) as (n' & Hn); exists n'; now right.
Qed.

(** ** Missing values *)
Lemma fold_missing l : method <> 1 -> forall x,
  (forall y, In y l -> y = na A \/ num A y = true /\ M_Exec.add A (na A) y = na A) ->
  x = na A \/ In (na A) l -> fold_left (combine_one A method) l x = na A.
Proof.
  intros HM. induction l as [|y l IH]; intros x HL HX; cbn.
  { now destruct HX. }
  apply IH; [intros z Hz; apply HL; now right|].
  unfold combine_one. replace (method =? 1) with false by (symmetry; now apply Z.eqb_neq).
  destruct (HL y) as [->|[E1 E2]]; [now left| |].
  - rewrite num_na. now left.
  - rewrite E1. destruct HX as [->|[->|HI]]; [now left| |now right]. now rewrite num_na in E1.
Qed.

(** ** When aggregation is defined *)
Lemma put_length_new k (v : list val) m : (length (put k v m) <= S (length m))%nat.
Proof. induction m as [|[k' v'] m IH]; cbn; auto. destruct (str_ltb k k'); cbn; [lia|]. destruct (str_eqb k k'); cbn; lia. Qed.
Lemma str_ltb_refl k : str_ltb k k = false.
Proof. destruct (str_ltb k k) eqn:E; auto. now apply str_lt_irrefl in E. Qed.
Lemma put_length_old k (v : list val) m w : sorted m -> find k m = Some w -> length (put k v m) = length m.
Proof.
  intros HS HF.
  assert (NoDup (keys (put k v m))) as N1 by (now apply sorted_NoDup, sorted_put).
  assert (incl (keys (put k v m)) (keys m)) as I1.
  { intros x Hx. apply keys_put_in in Hx. destruct Hx as [->|Hx]; auto. apply find_In in HF. now apply (in_map fst) in HF. }
  assert (incl (keys m) (keys (put k v m))) as I2.
  { intros x Hx. destruct (find x (put k v m)) as [z|] eqn:E; [apply find_In in E; now apply (in_map fst) in E|].
    rewrite find_put in E. destruct (str_eqb x k); [discriminate|]. apply find_None in E. contradiction. }
  apply (NoDup_incl_length N1) in I1. apply (NoDup_incl_length (sorted_NoDup _ HS)) in I2.
  unfold keys in *. rewrite !map_length in *. lia.
Qed.
Lemma pos_in_lt k m v : find k m = Some v -> 0 <= pos_in A k m < Z.of_nat (length m).
Proof.
  intros H. unfold pos_in. destruct (position k m) as [i|] eqn:E.
  - now apply position_Some in E.
  - apply position_None in E. congruence.
Qed.

Lemma aggr_defined l : forall ndb t np, sorted ndb -> slots t = 500 ->
  (length ndb + length l <= 500)%nat ->
  (forall n v m, In (n, v) l -> aggr_name c p n = Some m -> check_name (to_key UPPER_CASE m) VARIABLES = Ok tt) ->
  exists ndb' t' np', aggr l ndb t np = Ok (ndb', t', np') /\ slots t' = 500 /\
    (np < 500 -> np' < 500).
Proof.
  induction l as [|[n e] l IH]; intros ndb t np HS Ht HL HC; cbn [aggr_all].
  { exists ndb, t, np. auto. }
  cbn [length] in HL.
  assert (HC' : forall n v m, In (n, v) l -> aggr_name c p n = Some m -> check_name (to_key UPPER_CASE m) VARIABLES = Ok tt)
    by (intros n' v' m' H1 H2; exact (HC n' v' m' (or_intror H1) H2)).
  destruct (aggr_name c p n) as [m|] eqn:EN; [|apply IH; auto; lia].
  destruct (find (to_key UPPER_CASE m) ndb) as [x|] eqn:EF.
  - pose proof (pos_in_lt _ _ _ EF) as HP. unfold next_count. rewrite Ht.
    replace (pos_in A (to_key UPPER_CASE m) ndb <? 500) with true by (symmetry; apply Z.ltb_lt; lia). cbn [rbind].
    edestruct (IH (put (to_key UPPER_CASE m) (comb x e) ndb)
      (count t (pos_in A (to_key UPPER_CASE m) ndb) (times t (pos_in A (to_key UPPER_CASE m) ndb) + 1))
      (pos_in A (to_key UPPER_CASE m) ndb)) as (a & b & d & E & E1 & E2); auto.
    + now apply sorted_put.
    + rewrite (put_length_old _ _ _ _ HS EF). lia.
    + exists a, b, d. repeat split; auto. intros _. apply E2. lia.
  - rewrite (HC n e m) by (auto; now left). cbn [rbind].
    pose proof (put_length_new (to_key UPPER_CASE m) e ndb) as PL.
    pose proof (pos_in_lt _ _ _ (find_put_eq (to_key UPPER_CASE m) e ndb)) as HP.
    set (q := pos_in A _ _) in *. unfold first_count. rewrite Ht.
    replace (500 - 1 <? q) with false by (symmetry; apply Z.ltb_ge; lia). rewrite Ht.
    replace (q <? 500) with true by (symmetry; apply Z.ltb_lt; lia). cbn [rbind].
    edestruct (IH (put (to_key UPPER_CASE m) e ndb) (count t q 1) q) as (a & b & d & E & E1 & E2); auto.
    + now apply sorted_put.
    + lia.
    + exists a, b, d. repeat split; auto. intros _. apply E2. lia.
Qed.

(** ** Groups met in order *)
Lemma put_last k (v : list val) m : Forall (fun x => str_lt x k) (keys m) -> find k m = None ->
  put k v m = m ++ [(k, v)] /\ position k (put k v m) = Some (Z.of_nat (length m)).
Proof.
  induction m as [|[k' v'] m IH]; cbn [keys map fst put find app length].
  - intros _ _. cbn. now rewrite str_eqb_refl.
  - intros H HF. inversion H; subst. destruct (str_eqb k k') eqn:E; [discriminate|].
    assert (str_ltb k k' = false) as ->.
    { destruct (str_ltb k k') eqn:E2; auto. exfalso. apply (str_lt_irrefl k). now apply str_lt_trans with k'. }
    destruct IH as [E1 E2]; auto. rewrite E1 in *. split; auto. cbn [position]. rewrite E, E2. cbn [option_map]. f_equal. lia.
Qed.
Fixpoint ordered (ks : list str) (l : list (str * list val)) : Prop :=
  match l with
  | [] => True
  | (n, _) :: l' =>
    match aggr_name c p n with
    | None => ordered ks l'
    | Some m => (forall k, In k ks -> str_ltb (to_key UPPER_CASE m) k = false) /\ ordered (to_key UPPER_CASE m :: ks) l'
    end
  end.
Lemma ordered_less l : forall ks ks', (forall k, In k ks' -> In k ks) -> ordered ks l -> ordered ks' l.
Proof.
  induction l as [|[n e] l IH]; cbn [ordered]; auto. intros ks ks' HI. destruct (aggr_name c p n) as [m|]; [|now apply IH].
  intros [H1 H2]. split; auto. apply (IH (to_key UPPER_CASE m :: ks)); auto. intros k [->|Hk]; [now left|right; auto].
Qed.
Lemma aggr_defined_ordered l : forall ndb t np, sorted ndb -> 0 < slots t -> Z.of_nat (length ndb) <= slots t -> np < slots t ->
  ordered (keys ndb) l ->
  (forall n v m, In (n, v) l -> aggr_name c p n = Some m -> check_name (to_key UPPER_CASE m) VARIABLES = Ok tt) ->
  exists ndb' t' np', aggr l ndb t np = Ok (ndb', t', np') /\ np' < slots t'.
Proof.
  induction l as [|[n e] l IH]; intros ndb t np HS H0 HL HN HO HC; cbn [aggr_all].
  { exists ndb, t, np. auto. }
  assert (HC' : forall n v m, In (n, v) l -> aggr_name c p n = Some m -> check_name (to_key UPPER_CASE m) VARIABLES = Ok tt)
    by (intros n' v' m' H1 H2; exact (HC n' v' m' (or_intror H1) H2)).
  cbn [ordered] in HO. destruct (aggr_name c p n) as [m|] eqn:EN; [|apply IH; auto].
  destruct HO as [HO1 HO2]. destruct (find (to_key UPPER_CASE m) ndb) as [x|] eqn:EF.
  - pose proof (pos_in_lt _ _ _ EF) as HP. unfold next_count.
    replace (pos_in A (to_key UPPER_CASE m) ndb <? slots t) with true by (symmetry; apply Z.ltb_lt; lia). cbn [rbind].
    apply IH; auto.
    + now apply sorted_put.
    + rewrite (put_length_old _ _ _ _ HS EF). auto.
    + unfold count. cbn [slots]. lia.
    + revert HO2. apply ordered_less. intros k Hk. apply keys_put_in in Hk. destruct Hk as [->|Hk]; [now left|now right].
  - rewrite (HC n e m) by (auto; now left). cbn [rbind].
    assert (HF : Forall (fun x => str_lt x (to_key UPPER_CASE m)) (keys ndb)).
    { apply Forall_forall. intros k Hk. apply str_lt_total; auto. apply str_eqb_neq. intros <-.
      apply find_None in EF. contradiction. }
    destruct (put_last _ e _ HF EF) as [E1 E2]. unfold pos_in. rewrite E2. rewrite E1.
    unfold first_count. set (q := Z.of_nat (length ndb)) in *.
    assert (HL' : Z.of_nat (length (ndb ++ [(to_key UPPER_CASE m, e)])) = q + 1) by (rewrite app_length; cbn; lia).
    assert (HK' : ordered (keys (ndb ++ [(to_key UPPER_CASE m, e)])) l).
    { revert HO2. apply ordered_less. intros k Hk. unfold keys in Hk. rewrite map_app in Hk. apply in_app_or in Hk.
      destruct Hk as [Hk|[<-|[]]]; [now right|now left]. }
    assert (HS' : sorted (ndb ++ [(to_key UPPER_CASE m, e)])) by (rewrite <- E1; now apply sorted_put).
    destruct (slots t - 1 <? q) eqn:EG; cbn [slots].
    + replace (q <? slots t + 500) with true by (symmetry; apply Z.ltb_lt; apply Z.ltb_lt in EG; lia). cbn [rbind].
      apply IH; auto; cbn [count slots]; lia.
    + apply Z.ltb_ge in EG. replace (q <? slots t) with true by (symmetry; apply Z.ltb_lt; lia). cbn [rbind].
      apply IH; auto; cbn [count slots]; lia.
Qed.

(** ** A single group *)
Lemma aggr_single k l : (forall n v m, In (n, v) l -> aggr_name c p n = Some m -> to_key UPPER_CASE m = k) ->
  forall v t np ndb' t' np', aggr l [(k, v)] t 0 = Ok (ndb', t', np') -> np = 0 ->
  np' = 0 /\ times t' 0 = times t 0 + Z.of_nat (length (group c p k l)).
Proof.
  induction l as [|[n e] l IH]; intros HK v t np ndb' t' np'; cbn [aggr_all group].
  { intros H. assert (t' = t) as -> by congruence. cbn. intros _. split; [congruence|lia]. }
  assert (HK' : forall n v m, In (n, v) l -> aggr_name c p n = Some m -> to_key UPPER_CASE m = k)
    by (intros n' v' m' H1 H2; exact (HK n' v' m' (or_intror H1) H2)).
  destruct (aggr_name c p n) as [m|] eqn:EN; [|now apply (IH HK')].
  rewrite (HK n e m) by (auto; now left). cbn [find]. rewrite str_eqb_refl. cbn [pos_in position].
  unfold pos_in. cbn [position put]. rewrite str_eqb_refl, str_ltb_refl.
  unfold next_count. destruct (0 <? slots t); cbn [rbind]; [|discriminate].
  intros H. apply (IH HK' _ _ 0) in H; auto. destruct H as [E1 E2]. intros _. split; auto. rewrite E2. cbn. lia.
Qed.
Lemma aggr_single0 k l : (forall n v m, In (n, v) l -> aggr_name c p n = Some m -> to_key UPPER_CASE m = k) ->
  forall t ndb' t' np', aggr l [] t 0 = Ok (ndb', t', np') -> ndb' <> [] ->
  np' = 0 /\ times t' 0 = Z.of_nat (length (group c p k l)).
Proof.
  induction l as [|[n e] l IH]; intros HK t ndb' t' np'; cbn [aggr_all group].
  { intros H. assert (ndb' = []) as -> by congruence. congruence. }
  assert (HK' : forall n v m, In (n, v) l -> aggr_name c p n = Some m -> to_key UPPER_CASE m = k)
    by (intros n' v' m' H1 H2; exact (HK n' v' m' (or_intror H1) H2)).
  destruct (aggr_name c p n) as [m|] eqn:EN; [|now apply (IH HK')].
  rewrite (HK n e m) by (auto; now left). cbn [find]. rewrite str_eqb_refl.
  destruct (check_name _ _) as [[]| |]; cbn [rbind]; try discriminate.
  unfold pos_in. cbn [position put]. rewrite str_eqb_refl.
  unfold first_count. set (t1 := if slots t - 1 <? 0 then _ else _).
  destruct (0 <? slots t1); cbn [rbind]; [|discriminate].
  intros H _. apply (aggr_single k l HK' _ _ 0) in H; auto. destruct H as [E1 E2]. split; auto. rewrite E2. cbn [length].
  unfold count. cbn [times]. rewrite Z.eqb_refl. lia.
Qed.
End Results.

Fixpoint closedb (p : str) : bool :=
  match p with
  | [] => true
  | x :: p' =>
    (if (Ascii.eqb x "(" || Ascii.eqb x "[")%bool
     then match items true p', items false p' with _ :: _, _ :: _ => true | _, _ => false end else true) && closedb p'
  end.
Lemma closedb_ok p : closedb p = true -> no_open_end p.
Proof.
  induction p as [|x p IH]; cbn [closedb].
  - intros _ a x b E. destruct a; discriminate.
  - intros H. apply andb_true_iff in H. destruct H as [H1 H2]. intros a y b E HY i. destruct a as [|z a].
    + injection E as <- <-. revert H1. destruct HY as [-> | ->]; cbn [Ascii.eqb Bool.eqb orb];
        destruct (items true p) eqn:E1; try discriminate; destruct (items false p) eqn:E2; try discriminate;
        intros _; destruct i; congruence.
    + injection E as <- ->. exact (IH H2 a y b eq_refl HY i).
Qed.
