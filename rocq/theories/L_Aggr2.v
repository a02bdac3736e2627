(** Lemmas on the aggregation of variables: the whole function. *)
From Coq Require Import ZArith Ascii String List Bool Lia.
From Verif Require Import M_Base M_Names M_Lex S_Names L_Names M_Exec M_Kdb L_Kdb M_Aggr S_Aggr L_Aggr.
Import ListNotations.
Open Scope Z_scope.

Section Whole.
Variable A : arith.
Variables (method : Z) (c : ascii) (p : str).
Hypothesis HO : no_open_end p.
Notation val := (F A).
Definition start : counters := {| slots := 500; times := fun _ => 0 |}.
Definition divided (d : val) (v : val) : val := if num A v then dvd A v d else v.

Lemma aggregate_inv nb l ndb : aggregate A method c p nb l = Ok ndb ->
  exists base t np, aggr_all A method c p l [] start 0 = Ok (base, t, np) /\
    (method <> 2 /\ ndb = base \/
     method = 2 /\ ndb = map (fun kv => (fst kv, map (divided (ofZ A (times t np))) (snd kv))) base).
Proof.
  unfold aggregate. destruct (nb =? 0); [discriminate|]. fold start.
  destruct (aggr_all A method c p l [] start 0) as [[[base t] np]| |]; cbn [rbind]; try discriminate.
  intros H. exists base, t, np. split; auto. revert H.
  destruct (Z.eqb_spec method 2) as [E|E]; cbn [andb].
  - destruct base; cbn [negb].
    + intros H. right. split; auto. cbn. congruence.
    + destruct (np <? slots t); [|discriminate]. intros H. right. split; auto. unfold divided. congruence.
  - intros H. left. split; auto. congruence.
Qed.
Lemma find_map (f : list val -> list val) k m :
  find k (map (fun kv => (fst kv, f (snd kv))) m) = option_map f (find k m).
Proof. induction m as [|[k' v] m IH]; cbn; auto. destruct (str_eqb k k'); auto. Qed.

Lemma group_nonempty {V} k (l : list (str * V)) : group c p k l <> [] <-> exists n v, In (n, v) l /\ belongs c p n k.
Proof.
  induction l as [|[n e] l IH]; cbn [group].
  - split; [tauto|]. intros (? & ? & [] & _).
  - pose proof (belongs_iff c p n k HO) as B. split.
    + intros H. destruct (aggr_name c p n) as [m|].
      * destruct (str_eqb k (to_key UPPER_CASE m)) eqn:E.
        -- apply str_eqb_iff in E. exists n, e. split; [now left|]. apply B. eauto.
        -- apply IH in H. destruct H as (n' & v & HI & HB). exists n', v. split; auto. now right.
      * apply IH in H. destruct H as (n' & v & HI & HB). exists n', v. split; auto. now right.
    + intros (n' & v & HI & HB). destruct HI as [HI|HI].
      * assert (n = n') as -> by congruence. apply B in HB. destruct HB as (m & -> & ->). rewrite str_eqb_refl. discriminate.
      * assert (group c p k l <> []) by (apply IH; eauto). destruct (aggr_name c p n) as [m|]; auto.
        destruct (str_eqb k _); [discriminate|auto].
Qed.

Theorem groups nb l ndb : aggregate A method c p nb l = Ok ndb ->
  forall k, (exists vals, find k ndb = Some vals) <-> (exists n v, In (n, v) l /\ belongs c p n k).
Proof.
  intros H k. apply aggregate_inv in H. destruct H as (base & t & np & HA & HM).
  pose proof (aggr_find A method c p k l [] start 0 base t np HA) as HF. cbn [find fold_group] in HF.
  assert (HB : (exists vals, find k ndb = Some vals) <-> (exists vals, find k base = Some vals)).
  { destruct HM as [[_ ->]|[_ ->]]; [tauto|]. rewrite find_map. destruct (find k base); cbn; split; intros [? ?]; eauto; discriminate. }
  rewrite HB, HF, <- group_nonempty. destruct (group c p k l); split; eauto; try congruence. intros [? ?]; discriminate.
Qed.

(** The values before a possible division. *)
Lemma base_values nb l base t np k vals ms : aggr_all A method c p l [] start 0 = Ok (base, t, np) ->
  (forall n v, In (n, v) l -> length v = nb) -> find k base = Some vals -> members c p k l ms ->
  length vals = nb /\ ms <> [] /\ forall i, (i < nb)%nat ->
    nth i vals (na A) = total (combine_one A method) (map (fun m => nth i m (na A)) ms) (na A).
Proof.
  intros HA HL HF HM. pose proof (aggr_find A method c p k l [] start 0 base t np HA) as HF2. rewrite HF in HF2.
  apply group_members in HM; auto. rewrite HM in HF2. cbn [find fold_group] in HF2.
  assert (HN : forall v, In v ms -> length v = nb).
  { intros v Hv. rewrite <- HM in Hv. apply group_in in Hv. destruct Hv as (n & Hv). eauto. }
  destruct ms as [|x ms]; [discriminate|]. assert (vals = fold_left (combine A method) ms x) as -> by congruence.
  rewrite fold_length. assert (length x = nb) by (apply HN; now left). repeat split; auto; [discriminate|].
  intros i Hi. rewrite fold_nth; [reflexivity|lia|]. intros e He. rewrite (HN e); auto. now right.
Qed.

Theorem values nb l ndb k vals ms : method <> 2 -> aggregate A method c p (Z.of_nat nb) l = Ok ndb ->
  (forall n v, In (n, v) l -> length v = nb) -> find k ndb = Some vals -> members c p k l ms ->
  length vals = nb /\ forall i, (i < nb)%nat -> (forall m, In m ms -> num A (nth i m (na A)) = true) ->
    nth i vals (na A) = total (if method =? 1 then mul A else M_Exec.add A) (map (fun m => nth i m (na A)) ms) (na A).
Proof.
  intros HM2 H HL HF HM. apply aggregate_inv in H. destruct H as (base & t & np & HA & [[_ ->]|[E _]]); [|contradiction].
  destruct (base_values nb l base t np k vals ms HA HL HF HM) as (E1 & E2 & E3). split; auto.
  intros i Hi HN. rewrite (E3 i Hi). destruct ms as [|x ms]; [congruence|]. cbn [map total].
  apply fold_one_num. intros y Hy. apply in_map_iff in Hy. destruct Hy as (m & <- & Hm). apply HN. now right.
Qed.

Theorem sum_missing nb l ndb k vals ms : method <> 1 -> method <> 2 -> aggregate A method c p (Z.of_nat nb) l = Ok ndb ->
  (forall n v, In (n, v) l -> length v = nb) -> find k ndb = Some vals -> members c p k l ms ->
  forall i, (i < nb)%nat ->
    (forall m, In m ms -> nth i m (na A) = na A \/
       num A (nth i m (na A)) = true /\ M_Exec.add A (na A) (nth i m (na A)) = na A) ->
    (exists m, In m ms /\ nth i m (na A) = na A) ->
    nth i vals (na A) = na A.
Proof.
  intros HM1 HM2 H HL HF HM i Hi HN (m & Hm & Em).
  apply aggregate_inv in H. destruct H as (base & t & np & HA & [[_ ->]|[E _]]); [|contradiction].
  destruct (base_values nb l base t np k vals ms HA HL HF HM) as (E1 & E2 & E3).
  rewrite (E3 i Hi). destruct ms as [|x ms]; [congruence|]. cbn [map total].
  apply fold_missing; auto.
  - intros y Hy. apply in_map_iff in Hy. destruct Hy as (m' & <- & Hm'). apply HN. now right.
  - destruct Hm as [->|Hm]; [now left|]. right. apply in_map_iff. exists m. auto.
Qed.

Lemma nth_map_lt (f : val -> val) vals i : (i < length vals)%nat -> nth i (map f vals) (na A) = f (nth i vals (na A)).
Proof. revert i. induction vals as [|v vals IH]; intros [|i] H; cbn in *; try lia; auto. apply IH. lia. Qed.

Theorem mean_divisor nb l ndb : method = 2 -> aggregate A method c p (Z.of_nat nb) l = Ok ndb ->
  (forall n v, In (n, v) l -> length v = nb) ->
  exists d,
    (forall k vals ms, find k ndb = Some vals -> members c p k l ms ->
       length vals = nb /\ forall i, (i < nb)%nat -> (forall m, In m ms -> num A (nth i m (na A)) = true) ->
         let s := total (M_Exec.add A) (map (fun m => nth i m (na A)) ms) (na A) in
         nth i vals (na A) = if num A s then dvd A s (ofZ A d) else s) /\
    (forall k ms, (forall n v k', In (n, v) l -> belongs c p n k' -> k' = k) -> members c p k l ms -> ms <> [] ->
       d = Z.of_nat (length ms)).
Proof.
  intros HM2 H HL. apply aggregate_inv in H. destruct H as (base & t & np & HA & [[E _]|[_ ->]]); [contradiction|].
  exists (times t np). split.
  - intros k vals ms HF HM. rewrite find_map in HF. destruct (find k base) as [bv|] eqn:EB; [|discriminate]. cbn in HF.
    assert (vals = map (divided (ofZ A (times t np))) bv) as -> by congruence.
    destruct (base_values nb l base t np k bv ms HA HL EB HM) as (E1 & E2 & E3). split; [now rewrite map_length|].
    intros i Hi HN. cbv zeta. rewrite nth_map_lt by lia. rewrite (E3 i Hi). unfold divided.
    destruct ms as [|x ms]; [congruence|]. cbn [map total].
    rewrite fold_one_num; [now subst method|]. intros y Hy. apply in_map_iff in Hy. destruct Hy as (m & <- & Hm). apply HN.
    now right.
  - intros k ms HS HM HN. apply group_members in HM; auto.
    assert (HK : forall n v m, In (n, v) l -> aggr_name c p n = Some m -> to_key UPPER_CASE m = k).
    { intros n v m HI Hm. apply (HS n v); auto. apply belongs_iff; eauto. }
    assert (base <> []) as HB.
    { intros ->. pose proof (aggr_find A method c p k l [] start 0 [] t np HA) as HF. rewrite HM in HF. cbn in HF.
      destruct ms; [congruence|discriminate]. }
    destruct (aggr_single0 A method c p k l HK start base t np HA HB) as [-> ->]. now rewrite HM.
Qed.

Theorem defined nb l : nb <> 0 -> (length l <= 500)%nat ->
  (forall n v k, In (n, v) l -> belongs c p n k -> accepted VARIABLES k) ->
  exists ndb, aggregate A method c p nb l = Ok ndb.
Proof.
  intros HN HL HC. unfold aggregate. replace (nb =? 0) with false by (symmetry; now apply Z.eqb_neq). fold start.
  destruct (aggr_defined A method c p l [] start 0) as (ndb & t & np & E & E1 & E2); auto.
  - constructor.
  - intros n v m HI Hm. apply check_name_iff. apply (HC n v); auto. apply belongs_iff; eauto.
  - rewrite E. cbn [rbind]. destruct (_ && _); eauto. rewrite E1.
    replace (np <? 500) with true by (symmetry; apply Z.ltb_lt, E2; lia). eauto.
Qed.

Lemma ordered_spec (l : list (str * list val)) : forall ks,
  (forall k n v k', In k ks -> In (n, v) l -> belongs c p n k' -> str_ltb k' k = false) ->
  (forall a n v b n' v' k k', l = a ++ (n, v) :: b -> In (n', v') b -> belongs c p n k -> belongs c p n' k' -> str_ltb k' k = false) ->
  ordered A c p ks l.
Proof.
  induction l as [|[n e] l IH]; intros ks H1 H2; cbn [ordered]; auto.
  assert (H2' : forall a n v b n' v' k k', l = a ++ (n, v) :: b -> In (n', v') b -> belongs c p n k -> belongs c p n' k' -> str_ltb k' k = false).
  { intros a n1 v b n' v' k k' -> HI. apply (H2 ((n, e) :: a) n1 v b n' v'); auto. }
  destruct (aggr_name c p n) as [m|] eqn:EN.
  - assert (HB : belongs c p n (to_key UPPER_CASE m)) by (apply belongs_iff; eauto). split.
    + intros k Hk. apply (H1 k n e); auto. now left.
    + apply IH; auto. intros k n' v k' [<-|Hk] HI HB'.
      * now apply (H2 [] n e l n' v _ k' eq_refl HI HB).
      * apply (H1 k n' v); auto. now right.
  - apply IH; auto. intros k n' v k' Hk HI. apply (H1 k n' v); auto. now right.
Qed.
Theorem defined_ordered nb l : nb <> 0 ->
  (forall n v k, In (n, v) l -> belongs c p n k -> accepted VARIABLES k) ->
  (forall a n v b n' v' k k', l = a ++ (n, v) :: b -> In (n', v') b -> belongs c p n k -> belongs c p n' k' -> str_ltb k' k = false) ->
  exists ndb, aggregate A method c p nb l = Ok ndb.
Proof.
  intros HN HC HK. unfold aggregate. replace (nb =? 0) with false by (symmetry; now apply Z.eqb_neq). fold start.
  destruct (aggr_defined_ordered A method c p l [] start 0) as (ndb & t & np & E & E2); cbn; try lia; auto.
  - constructor.
  - apply ordered_spec; auto. intros k n v k' [].
  - intros n v m HI Hm. apply check_name_iff. apply (HC n v); auto. apply belongs_iff; eauto.
  - fold start. rewrite E. cbn [rbind]. destruct (_ && _); eauto.
    replace (np <? slots t) with true by (symmetry; now apply Z.ltb_lt). eauto.
Qed.
End Whole.
