(** Arrays, tables and the vectors of predecessors and successors. *)
From Coq Require Import ZArith Ascii String List Bool Lia Relations.
From Verif Require Import M_Base M_Names M_Lex M_Bytes M_Order S_Order.
Import ListNotations.
Open Scope Z_scope.

Lemma getz_some {A} (l : list A) (n : nat) x : nth_error l n = Some x -> getz l (Z.of_nat n) = Ok x.
Proof.
  intros H. unfold getz. destruct (Z.ltb_spec (Z.of_nat n) 0); [lia|]. rewrite Nat2Z.id, H. reflexivity.
Qed.
Lemma getz_inv {A} (l : list A) i x : getz l i = Ok x -> exists n, i = Z.of_nat n /\ nth_error l n = Some x.
Proof.
  unfold getz. destruct (Z.ltb_spec i 0); [discriminate|]. destruct (nth_error l (Z.to_nat i)) eqn:E; [|discriminate].
  intros H1; inversion H1; subst. exists (Z.to_nat i). split; [lia|exact E].
Qed.
Lemma nth_ex {A} (l : list A) (n : nat) : (n < length l)%nat -> exists x, nth_error l n = Some x.
Proof.
  intros H. destruct (nth_error l n) eqn:E; [eauto|]. apply nth_error_None in E. lia.
Qed.
Lemma nth_lt {A} (l : list A) (n : nat) x : nth_error l n = Some x -> (n < length l)%nat.
Proof. intros H. apply nth_error_Some. rewrite H. discriminate. Qed.

Lemma put_at_length {A} (l : list A) n v : length (put_at l n v) = length l.
Proof. revert n; induction l as [|x l IH]; intros [|n]; cbn; auto. Qed.
Lemma put_at_same {A} (l : list A) n v : (n < length l)%nat -> nth_error (put_at l n v) n = Some v.
Proof. revert n; induction l as [|x l IH]; intros [|n] H; cbn in *; try lia; auto. apply IH. lia. Qed.
Lemma put_at_other {A} (l : list A) n k v : n <> k -> nth_error (put_at l n v) k = nth_error l k.
Proof. revert n k; induction l as [|x l IH]; intros [|n] [|k] H; cbn; auto; congruence. Qed.
Lemma put_at_app {A} (a : list A) x b v : put_at (a ++ x :: b) (length a) v = a ++ v :: b.
Proof. induction a as [|y a IH]; cbn; [reflexivity|now rewrite IH]. Qed.
Lemma put_at_nth {A} (l : list A) n k v :
  nth_error (put_at l n v) k = if Nat.eqb n k then (if Nat.ltb n (length l) then Some v else None) else nth_error l k.
Proof.
  destruct (Nat.eqb_spec n k) as [->|H]; [|now apply put_at_other].
  destruct (Nat.ltb_spec k (length l)); [now apply put_at_same|].
  apply nth_error_None. rewrite put_at_length. exact H.
Qed.

Lemma setz_ok {A} (l : list A) (n : nat) v : (n < length l)%nat -> setz l (Z.of_nat n) v = Ok (put_at l n v).
Proof.
  intros H. unfold setz. destruct (Z.ltb_spec (Z.of_nat n) 0); [lia|].
  destruct (Z.leb_spec (Z.of_nat (length l)) (Z.of_nat n)); [lia|]. cbn. now rewrite Nat2Z.id.
Qed.

(** * Finding the equation of a variable *)

Lemma gep_ok m v : linked m -> -1 <= v < len (posrev m) ->
  exists p, get_eq_position m v = Ok p /\ -1 <= p < len (objs m).
Proof.
  intros L H. unfold get_eq_position. destruct (Z.ltb_spec v 0).
  { exists (-1). split; [reflexivity|]. unfold len. lia. }
  assert (E : v = Z.of_nat (Z.to_nat v)) by lia.
  destruct (nth_ex (posrev m) (Z.to_nat v)) as [e He]. { unfold len in H. lia. }
  assert (G : getz (posrev m) v = Ok e) by (rewrite E; now apply getz_some).
  destruct (Z.ltb_spec v (nb_eqs m)) as [Hn|Hn].
  - destruct (nth_ex (posxk m) (Z.to_nat v)) as [w Hw]. { rewrite (l_len m L). unfold nb_eqs, len in Hn. lia. }
    assert (G' : getz (posxk m) v = Ok w) by (rewrite E; now apply getz_some).
    rewrite G'. cbn [rbind]. destruct (w =? v).
    + exists v. split; [reflexivity|]. unfold nb_eqs in Hn. lia.
    + exists e. split; [exact G|]. eapply l_rev; eauto.
  - cbn [rbind]. exists e. split; [exact G|]. eapply l_rev; eauto.
Qed.

Lemma gep_endo m v k : linked m -> endo_of m k v -> get_eq_position m v = Ok (Z.of_nat k).
Proof.
  intros L H. destruct (l_endo m L k v H) as [Hv Hr]. unfold get_eq_position.
  destruct (Z.ltb_spec v 0); [lia|].
  assert (E : v = Z.of_nat (Z.to_nat v)) by lia.
  assert (G : getz (posrev m) v = Ok (Z.of_nat k)) by (rewrite E; now apply getz_some).
  destruct (Z.ltb_spec v (nb_eqs m)) as [Hn|Hn]; [|exact G].
  destruct (nth_ex (posxk m) (Z.to_nat v)) as [w Hw]. { rewrite (l_len m L). unfold nb_eqs, len in Hn. lia. }
  assert (G' : getz (posxk m) v = Ok w) by (rewrite E; now apply getz_some).
  rewrite G'. cbn [rbind]. destruct (Z.eqb_spec w v) as [->|N]; [|exact G].
  destruct (l_endo m L (Z.to_nat v) v Hw) as [_ H2]. rewrite Hr in H2. inversion H2. f_equal. lia.
Qed.

Lemma gep_sound m v p : linked m -> exact_tables m -> get_eq_position m v = Ok p -> 0 <= p -> endo_of m (Z.to_nat p) v.
Proof.
  intros L X H Hp. unfold get_eq_position in H. destruct (Z.ltb_spec v 0); [inversion H; lia|].
  destruct (Z.ltb_spec v (nb_eqs m)).
  - destruct (getz (posxk m) v) as [w| |] eqn:G; try discriminate. cbn [rbind] in H.
    apply getz_inv in G as (n & -> & Hw). destruct (Z.eqb_spec w (Z.of_nat n)) as [->|N].
    + inversion H; subst. rewrite Nat2Z.id. exact Hw.
    + apply getz_inv in H as (n' & E & Hr). apply Nat2Z.inj in E. subst n'.
      apply (X n p Hr Hp).
  - cbn [rbind] in H. apply getz_inv in H as (n' & -> & Hr). apply (X n' p Hr Hp).
Qed.

(** * Rows *)

Definition rows_ok (n : nat) (rows : list (list Z)) : Prop :=
  length rows = n /\
  forall e row, nth_error rows e = Some row ->
    row = [] \/ exists l, row = len l :: l /\ Forall (fun x => -1 <= x < Z.of_nat n) l.
Definition mem (rows : list (list Z)) (e : nat) (x : Z) : Prop :=
  exists row, nth_error rows e = Some row /\ In x (tl row).

Lemma add_post_ok n succ i e : rows_ok n succ -> (i < n)%nat -> (e < n)%nat ->
  exists succ', add_post succ (Z.of_nat i) (Z.of_nat e) = Ok succ' /\ rows_ok n succ' /\
    forall a x, mem succ' a x <-> mem succ a x \/ (x = Z.of_nat i /\ a = e).
Proof.
  intros [Hl Hr] Hi He. destruct (nth_ex succ e) as [row Hrow]; [lia|].
  unfold add_post. rewrite (getz_some _ _ _ Hrow). cbn [rbind].
  assert (exists l, match row with [] => [0] | _ => row end = len l :: l /\
            Forall (fun x => -1 <= x < Z.of_nat n) l /\ (forall x, In x l <-> In x (tl row))) as (l & E & F & I).
  { destruct (Hr e row Hrow) as [-> | (l & -> & F)].
    - exists []. split; [reflexivity|]. split; [constructor|]. reflexivity.
    - exists l. split; [reflexivity|]. split; [exact F|]. reflexivity. }
  rewrite E. exists (put_at succ e ((len l + 1 :: l) ++ [Z.of_nat i])).
  split; [apply setz_ok; lia|]. split.
  - split; [rewrite put_at_length; exact Hl|]. intros a r Ha. rewrite put_at_nth in Ha.
    destruct (Nat.eqb_spec e a) as [->|N].
    + destruct (Nat.ltb_spec a (length succ)); [|discriminate]. inversion Ha; subst. right.
      exists (l ++ [Z.of_nat i]). split.
      * cbn. f_equal. unfold len. rewrite app_length. cbn. lia.
      * apply Forall_app. split; [exact F|]. constructor; [lia|constructor].
    + apply (Hr a r Ha).
  - intros a x. unfold mem. split.
    + intros (r & Ha & Hx). rewrite put_at_nth in Ha. destruct (Nat.eqb_spec e a) as [->|N].
      * destruct (Nat.ltb_spec a (length succ)); [|discriminate]. inversion Ha; subst. cbn in Hx.
        apply in_app_iff in Hx. destruct Hx as [Hx|[Hx|[]]].
        -- left. exists row. split; [exact Hrow|]. now apply I.
        -- right. auto.
      * left. eauto.
    + intros [(r & Ha & Hx)|[-> ->]].
      * rewrite put_at_nth. destruct (Nat.eqb_spec e a) as [->|N]; [|eauto].
        destruct (Nat.ltb_spec a (length succ)); [|lia]. eexists. split; [reflexivity|].
        rewrite Hrow in Ha. inversion Ha; subst. cbn. apply in_app_iff. left. now apply I.
      * rewrite put_at_nth, Nat.eqb_refl. destruct (Nat.ltb_spec e (length succ)); [|lia].
        eexists. split; [reflexivity|]. cbn. apply in_app_iff. right. left. reflexivity.
Qed.

(** * Scanning an equation *)

Lemma scan_ok m i o0 : linked m -> nth_error (objs m) i = Some o0 ->
  forall o succ, incl o o0 -> rows_ok (length (objs m)) succ ->
  exists l succ', scan_objs m (Z.of_nat i) o succ = Ok (l, succ') /\
    length l = length (filter (fun q => negb (is_coefficient (fst q))) o) /\
    Forall (fun x => -1 <= x < len (objs m)) l /\
    (forall name v k, In (name, v) o -> is_coefficient name = false -> endo_of m k v -> k <> i -> In (Z.of_nat k) l) /\
    (exact_tables m -> forall p, In p l -> 0 <= p -> uses m i (Z.to_nat p)) /\
    rows_ok (length (objs m)) succ' /\
    (forall a x, mem succ' a x <-> mem succ a x \/ (x = Z.of_nat i /\ In (Z.of_nat a) l)).
Proof.
  intros L Hi. assert (Hin := nth_lt _ _ _ Hi). destruct (nth_ex (posxk m) i) as [xk Hxk].
  { rewrite (l_len m L). exact Hin. }
  induction o as [|[name v] o IH]; intros succ Hinc Hs.
  - exists [], succ. cbn [scan_objs filter]. split; [reflexivity|]. split; [reflexivity|]. split; [constructor|].
    split; [intros ? ? ? []|]. split; [intros _ ? []|]. split; [exact Hs|]. intros a x. cbn. tauto.
  - assert (Hinc' : incl o o0) by (intros q Hq; apply Hinc; now right).
    cbn [scan_objs filter]. destruct (is_coefficient name) eqn:C; cbn [fst].
    + rewrite C. cbn [negb]. destruct (IH succ Hinc' Hs) as (l & succ' & E & H1 & H2 & H3 & H4 & H5 & H6).
      exists l, succ'. split; [exact E|]. split; [exact H1|]. split; [exact H2|].
      split; [|split; [exact H4|split; [exact H5|exact H6]]].
      intros nm w k [Q|Q] Cn; [inversion Q; congruence|]. now apply (H3 nm w k).
    + rewrite C. cbn [negb]. rewrite (getz_some _ _ _ Hxk). cbn [rbind].
      assert (Occ : occurs m i v).
      { exists o0, name. split; [exact Hi|]. split; [apply Hinc; now left|exact C]. }
      assert (exists p, (if xk =? v then Ok (-1) else do p <- get_eq_position m v;
                Ok (if (0 <=? p) && (p =? Z.of_nat i) then -1 else p)) = Ok p /\ -1 <= p < len (objs m) /\
                (forall k, endo_of m k v -> k <> i -> p = Z.of_nat k) /\
                (exact_tables m -> 0 <= p -> uses m i (Z.to_nat p))) as (p & Ep & Rp & Cp & Sp).
      { destruct (Z.eqb_spec xk v) as [->|Nx].
        - exists (-1). split; [reflexivity|]. split; [unfold len; lia|]. split; [|intros _ ?; lia].
          intros k Hk Hne. exfalso. apply Hne.
          destruct (l_endo m L k v Hk) as [_ A]. destruct (l_endo m L i v Hxk) as [_ B]. rewrite A in B.
          inversion B. lia.
        - destruct (gep_ok m v L (l_occ m L i v Occ)) as (p & Ep & Rp). rewrite Ep. cbn [rbind].
          destruct ((0 <=? p) && (p =? Z.of_nat i)) eqn:B.
          + apply andb_true_iff in B as [B1 B2]. apply Z.eqb_eq in B2. subst p.
            exists (-1). split; [reflexivity|]. split; [unfold len; lia|]. split; [|intros _ ?; lia].
            intros k Hk Hne. rewrite (gep_endo m v k L Hk) in Ep. inversion Ep. lia.
          + exists p. split; [reflexivity|]. split; [exact Rp|]. split.
            * intros k Hk _. rewrite (gep_endo m v k L Hk) in Ep. inversion Ep. reflexivity.
            * intros X Hp. split.
              -- intros ->. apply andb_false_iff in B as [B|B].
                 ++ apply Z.leb_gt in B. lia.
                 ++ apply Z.eqb_neq in B. lia.
              -- exists v. split; [|exact Occ]. eapply gep_sound; eauto. }
      rewrite Ep. cbn [rbind].
      assert (exists s1, (if 0 <=? p then add_post succ (Z.of_nat i) p else Ok succ) = Ok s1 /\
                rows_ok (length (objs m)) s1 /\
                forall a x, mem s1 a x <-> mem succ a x \/ (x = Z.of_nat i /\ Z.of_nat a = p)) as (s1 & E1 & R1 & M1).
      { destruct (Z.leb_spec 0 p) as [Hp|Hp].
        - destruct (add_post_ok _ succ i (Z.to_nat p) Hs Hin) as (s1 & E1 & R1 & M1). { unfold len in Rp. lia. }
          rewrite Z2Nat.id in E1 by lia. exists s1. split; [exact E1|]. split; [exact R1|].
          intros a x. rewrite M1. intuition lia.
        - exists succ. split; [reflexivity|]. split; [exact Hs|]. intros a x. intuition lia. }
      rewrite E1. cbn [rbind].
      destruct (IH s1 Hinc' R1) as (l & succ' & E & H1 & H2 & H3 & H4 & H5 & H6).
      rewrite E. cbn [rbind fst snd]. exists (p :: l), succ'. split; [reflexivity|].
      split; [cbn; now rewrite H1|]. split; [constructor; [exact Rp|exact H2]|]. split; [|split; [|split; [exact H5|]]].
      * intros nm w k [Q|Q] Cn Ek Hne.
        -- inversion Q; subst. left. now apply Cp.
        -- right. now apply (H3 nm w k).
      * intros X q [<-|Hq] Hq0; [now apply Sp|now apply H4].
      * intros a x. rewrite H6, M1. cbn [In]. intuition.
Qed.

(** * The vectors *)

Definition row_facts (m : model) (i : nat) (l : list Z) : Prop :=
  (forall k, uses m i k -> In (Z.of_nat k) l) /\
  (exact_tables m -> forall p, In p l -> 0 <= p -> uses m i (Z.to_nat p)).

Lemma pre_order_ok m : linked m ->
  forall done os pred succ, objs m = done ++ os -> length pred = length done ->
  rows_ok (length (objs m)) succ ->
  (forall i row, nth_error pred i = Some row -> exists l, row = len l :: l /\ Forall (fun x => -1 <= x < len (objs m)) l /\
      exists l1 l2, l = l1 ++ l2 /\ row_facts m i l1 /\ (forall a, mem succ a (Z.of_nat i) <-> In (Z.of_nat a) l1) /\
        Forall (fun x => x = 0) l2 /\ (l2 <> [] -> has_coefficient m i)) ->
  (forall a x, mem succ a x -> exists i, x = Z.of_nat i /\ (i < length pred)%nat) ->
  exists pred' succ', pre_order m (len done) os pred succ = Ok (pred', succ') /\ length pred' = length (objs m) /\
    rows_ok (length (objs m)) succ' /\
    (forall i row, nth_error pred' i = Some row -> exists l, row = len l :: l /\ Forall (fun x => -1 <= x < len (objs m)) l /\
      exists l1 l2, l = l1 ++ l2 /\ row_facts m i l1 /\ (forall a, mem succ' a (Z.of_nat i) <-> In (Z.of_nat a) l1) /\
        Forall (fun x => x = 0) l2 /\ (l2 <> [] -> has_coefficient m i)) /\
    (forall a x, mem succ' a x -> exists i, x = Z.of_nat i /\ (i < length pred')%nat).
Proof.
  intros L done os. revert done. induction os as [|o os IH]; intros done pred succ Hobjs Hlen Hs Hp Hm.
  - exists pred, succ. cbn [pre_order]. split; [reflexivity|]. rewrite app_nil_r in Hobjs. split; [congruence|]. auto.
  - cbn [pre_order]. assert (Hi : nth_error (objs m) (length done) = Some o).
    { rewrite Hobjs, nth_error_app2, Nat.sub_diag by lia. reflexivity. }
    destruct (scan_ok m (length done) o L Hi o succ (incl_refl o) Hs) as (l & s1 & E & H1 & H2 & H3 & H4 & H5 & H6).
    unfold len at 1. rewrite E. cbn [rbind fst snd].
    set (z := repeat 0 (length o - length l)).
    assert (Hlo : (length l <= length o)%nat).
    { rewrite H1. clear. induction o as [|q o IH]; cbn; [lia|]. destruct (negb (is_coefficient (fst q))); cbn; lia. }
    assert (Elen : len o = len (l ++ z)).
    { unfold len, z. rewrite app_length, repeat_length. f_equal. lia. }
    replace (len done + 1) with (len (done ++ [o])) by (unfold len; rewrite app_length; cbn; lia).
    assert (F0 : Forall (fun x => x = 0) z) by (apply Forall_forall; intros x Hx; now apply repeat_spec in Hx).
    apply (IH (done ++ [o]) (pred ++ [len o :: l ++ z]) s1).
    + rewrite <- app_assoc. exact Hobjs.
    + rewrite !app_length. cbn. lia.
    + exact H5.
    + intros i row Hi'. destruct (Nat.lt_ge_cases i (length pred)) as [Hlt|Hge].
      * rewrite nth_error_app1 in Hi' by exact Hlt.
        destruct (Hp i row Hi') as (l0 & -> & F & l1 & l2 & -> & RF & Q & Z0 & HC).
        exists (l1 ++ l2). split; [reflexivity|]. split; [exact F|]. exists l1, l2.
        split; [reflexivity|]. split; [exact RF|]. split; [|split; [exact Z0|exact HC]].
        intros a. rewrite H6, Q. split; [|tauto]. intros [?|[B ?]]; [assumption|]. exfalso. lia.
      * rewrite nth_error_app2 in Hi' by exact Hge. destruct (i - length pred)%nat eqn:D; [|destruct n; discriminate].
        cbn in Hi'. inversion Hi'; subst row. assert (Ei : i = length done) by lia. subst i.
        exists (l ++ z). split; [now rewrite Elen|]. split.
        { apply Forall_app. split; [exact H2|]. eapply Forall_impl; [|exact F0]. intros x ->.
          apply nth_lt in Hi. unfold len. cbv beta. lia. }
        exists l, z. split; [reflexivity|]. split; [|split; [|split; [exact F0|]]].
        -- split.
           ++ intros k (Hne & v & Ek & o' & name & Eo & Ino & C). rewrite Hi in Eo. inversion Eo; subst o'.
              apply (H3 name v k Ino C Ek). congruence.
           ++ exact H4.
        -- intros a. rewrite H6. split; [|tauto]. intros [B|[_ ?]]; [|assumption]. exfalso.
           destruct (Hm _ _ B) as (i & Ei & Hlt). lia.
        -- intros Hz. destruct (length o - length l)%nat eqn:D'; [now elim Hz|].
           assert (exists q, In q o /\ is_coefficient (fst q) = true) as ([name v] & Hq & Cq).
           { clear - D' H1. rewrite H1 in D'. clear H1. induction o as [|q o IHo]; cbn in D'; [discriminate|].
             destruct (is_coefficient (fst q)) eqn:C; [exists q; cbn; auto|]. cbn in D'.
             destruct IHo as (r & ? & ?); [exact D'|]. exists r. cbn. auto. }
           exists o, name, v. auto.
    + intros a x Hx. rewrite app_length. cbn. apply H6 in Hx as [Hx|[-> Hx]].
      * destruct (Hm _ _ Hx) as (i & -> & ?). exists i. split; [reflexivity|lia].
      * exists (length done). split; [reflexivity|lia].
Qed.

Lemma pre_order_all m : linked m ->
  exists pred succ, pre_order m 0 (objs m) [] (map (fun _ => []) (objs m)) = Ok (pred, succ) /\
    rows_ok (length (objs m)) pred /\ rows_ok (length (objs m)) succ /\
    (forall e row, nth_error pred e = Some row -> row <> []) /\
    (forall i k, uses m i k -> mem pred i (Z.of_nat k) /\ mem succ k (Z.of_nat i)) /\
    (exact_tables m -> forall i x, mem pred i x -> 0 <= x -> uses m i (Z.to_nat x) \/ (x = 0 /\ has_coefficient m i)) /\
    (exact_tables m -> forall k x, mem succ k x -> 0 <= x -> uses m (Z.to_nat x) k).
Proof.
  intros L.
  assert (S0 : forall k row, nth_error (map (fun _ : list (str * Z) => @nil Z) (objs m)) k = Some row -> row = []).
  { intros k row H. apply nth_error_In in H. apply in_map_iff in H as (? & <- & _). reflexivity. }
  destruct (pre_order_ok m L [] (objs m) [] (map (fun _ => []) (objs m))) as (pred & succ & E & Hl & Hs & Hp & Hm).
  - reflexivity.
  - reflexivity.
  - split; [apply map_length|]. intros e row H. left. eapply S0; eauto.
  - intros i row H. destruct i; discriminate.
  - intros a x (row & H & Hx). apply S0 in H. subst. destruct Hx.
  - exists pred, succ. split; [exact E|]. split.
    { split; [exact Hl|]. intros e row H. right. destruct (Hp e row H) as (l & -> & F & _). exists l. split; [reflexivity|exact F]. }
    split; [exact Hs|]. split; [intros e row H ->; destruct (Hp e [] H) as (l & Q & _); discriminate|].
    split; [|split].
    + intros i k U. assert (Hi : (i < length pred)%nat).
      { destruct U as (_ & v & _ & o & name & Ho & _). apply nth_lt in Ho. lia. }
      destruct (nth_ex pred i Hi) as [row Hrow]. destruct (Hp i row Hrow) as (l & -> & F & l1 & l2 & -> & [RF _] & Q & _).
      specialize (RF k U). split.
      * exists (len (l1 ++ l2) :: l1 ++ l2). split; [exact Hrow|]. cbn. apply in_app_iff. now left.
      * now apply Q.
    + intros X i x (row & Hrow & Hx) Hx0. destruct (Hp i row Hrow) as (l & -> & F & l1 & l2 & -> & [_ RF] & _ & Z0 & HC).
      cbn in Hx. apply in_app_iff in Hx as [Hx|Hx]; [left; now apply RF|right].
      rewrite Forall_forall in Z0. split; [now apply Z0|]. apply HC. intros ->. destruct Hx.
    + intros X k x Hx Hx0. destruct (Hm k x Hx) as (i & -> & Hi). rewrite Nat2Z.id.
      destruct (nth_ex pred i Hi) as [row Hrow]. destruct (Hp i row Hrow) as (l & -> & F & l1 & l2 & -> & [_ RF] & Q & _).
      apply Q in Hx. rewrite <- (Nat2Z.id k). apply RF; [exact X|exact Hx|lia].
Qed.
