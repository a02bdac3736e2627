(** The epilog reversed, the interdependent block, the triangulation. *)
From Coq Require Import ZArith Ascii String List Bool Lia Permutation.
From Verif Require Import M_Base M_Names M_Order S_Order L_Order L_Order2.
Import ListNotations.
Open Scope Z_scope.

Lemma getz_mid {A} (a : list A) x b i : i = len a -> getz (a ++ x :: b) i = Ok x.
Proof.
  intros ->. unfold len. apply getz_some. rewrite nth_error_app2, Nat.sub_diag by lia. reflexivity.
Qed.
Lemma setz_mid {A} (a : list A) x b i v : i = len a -> setz (a ++ x :: b) i v = Ok (a ++ v :: b).
Proof.
  intros ->. unfold len. rewrite setz_ok by (rewrite app_length; cbn; lia). now rewrite put_at_app.
Qed.
Lemma len_app {A} (a b : list A) : len (a ++ b) = len a + len b.
Proof. unfold len. rewrite app_length. lia. Qed.
Lemma len_cons {A} (x : A) l : len (x :: l) = len l + 1.
Proof. unfold len. cbn [length]. lia. Qed.
Lemma len1 {A} (x : A) : len [x] = 1. Proof. reflexivity. Qed.
Lemma len_nil {A} : len (@nil A) = 0. Proof. reflexivity. Qed.

Lemma reverse_ok n : forall l a r pre post i, n = (length l / 2)%nat -> pre + i = len a ->
  pre + (post - 1) - i = len a + len l - 1 -> reverse_loop pre post i n (a ++ l ++ r) = Ok (a ++ rev l ++ r).
Proof.
  induction n as [|n IH]; intros l a r pre post i Hn H1 H2.
  - cbn [reverse_loop]. destruct l as [|x [|y l]]; try reflexivity. exfalso. cbn [length] in Hn.
    change (S (S (length l))) with (2 + length l)%nat in Hn.
    assert (1 <= (2 + length l) / 2)%nat by (apply Nat.div_le_lower_bound; lia). lia.
  - destruct l as [|x l]; [cbn in Hn; discriminate|].
    destruct (list_eq_dec Z.eq_dec l []) as [->|Hl]; [cbn in Hn; discriminate|].
    destruct (exists_last Hl) as (l' & y & ->).
    assert (E1 : pre + (post - 1) - i = len (a ++ x :: l')).
    { rewrite H2, !len_cons, !len_app, len_cons, len_cons, len_nil. lia. }
    cbn [reverse_loop]. cbn [app]. rewrite (getz_mid a x _ _ H1). cbn [rbind].
    replace (a ++ x :: (l' ++ [y]) ++ r) with ((a ++ x :: l') ++ y :: r) by (rewrite <- !app_assoc; reflexivity).
    rewrite (getz_mid _ y r _ E1). cbn [rbind].
    replace ((a ++ x :: l') ++ y :: r) with (a ++ x :: (l' ++ y :: r)) by (rewrite <- app_assoc; reflexivity).
    rewrite (setz_mid a x _ _ y H1). cbn [rbind].
    replace (a ++ y :: l' ++ y :: r) with ((a ++ y :: l') ++ y :: r) by (rewrite <- app_assoc; reflexivity).
    rewrite (setz_mid (a ++ y :: l') y r _ x); [|rewrite E1, !len_app, !len_cons; lia]. cbn [rbind].
    replace ((a ++ y :: l') ++ x :: r) with ((a ++ [y]) ++ l' ++ (x :: r)) by (rewrite <- !app_assoc; reflexivity).
    rewrite (IH l' (a ++ [y]) (x :: r) pre post (i + 1)).
    + f_equal. cbn [rev]. rewrite rev_app_distr. cbn [rev app]. rewrite <- !app_assoc. reflexivity.
    + cbn [length] in Hn. rewrite app_length in Hn. cbn [length] in Hn.
      replace (S (length l' + 1)) with (length l' + 1 * 2)%nat in Hn by lia.
      rewrite Nat.div_add in Hn by lia. lia.
    + rewrite len_app, len1. lia.
    + rewrite len_cons, !len_app, len_cons, len_nil in H2. rewrite len_app, len1. lia.
Qed.

(** * The equations not placed *)

Fixpoint unplaced (i : Z) (od : list bool) : list Z :=
  match od with [] => [] | true :: l => unplaced (i + 1) l | false :: l => i :: unplaced (i + 1) l end.

Lemma unplaced_in od : forall i x, In x (unplaced i od) <-> exists e, x = i + Z.of_nat e /\ nth_error od e = Some false.
Proof.
  induction od as [|b od IH]; intros i x.
  - cbn. split; [intros []|intros (e & _ & H); destruct e; discriminate].
  - cbn [unplaced]. destruct b.
    + rewrite IH. split.
      * intros (e & -> & H). exists (S e). split; [lia|exact H].
      * intros (e & -> & H). destruct e; [discriminate|]. exists e. split; [lia|exact H].
    + cbn [In]. rewrite IH. split.
      * intros [<-|(e & -> & H)]; [exists 0%nat; split; [lia|reflexivity]|]. exists (S e). split; [lia|exact H].
      * intros (e & -> & H). destruct e; [left; lia|]. right. exists e. split; [lia|exact H].
Qed.
Lemma unplaced_nodup od : forall i, NoDup (unplaced i od).
Proof.
  induction od as [|b od IH]; intros i; [constructor|]. cbn [unplaced]. destruct b; [apply IH|].
  constructor; [|apply IH]. rewrite unplaced_in. intros (e & E & _). lia.
Qed.

Lemma inter_ok od : forall a junk at_ i n, at_ + n = len a -> (length (unplaced i od) <= length junk)%nat ->
  inter_loop at_ i od (a ++ junk) n =
    Ok (a ++ unplaced i od ++ skipn (length (unplaced i od)) junk, n + len (unplaced i od)).
Proof.
  induction od as [|b od IH]; intros a junk at_ i n H1 H2.
  - cbn [inter_loop unplaced length skipn app]. rewrite len_nil, Z.add_0_r. reflexivity.
  - destruct b; cbn [inter_loop unplaced] in *; [now apply IH|].
    destruct junk as [|y junk]; [cbn in H2; lia|]. cbn [length] in H2.
    rewrite (setz_mid a y junk _ i H1). cbn [rbind].
    replace (a ++ i :: junk) with ((a ++ [i]) ++ junk) by (rewrite <- app_assoc; reflexivity).
    rewrite IH by (rewrite ?len_app, ?len_cons, ?len_nil; lia).
    rewrite <- app_assoc. cbn [app length skipn]. rewrite len_cons. do 2 f_equal. lia.
Qed.

Lemma rotate_ok a p r : rotate (len a) (len r) (len p) (a ++ p ++ r) = a ++ r ++ p.
Proof.
  unfold rotate, len. rewrite !Nat2Z.id.
  assert (S1 : forall (x y : list Z), skipn (length x) (x ++ y) = y) by (intros; rewrite skipn_app, skipn_all, Nat.sub_diag; reflexivity).
  assert (F1 : forall (x y : list Z), firstn (length x) (x ++ y) = x)
    by (intros; rewrite firstn_app, firstn_all, Nat.sub_diag, firstn_O, app_nil_r; reflexivity).
  rewrite S1, F1, S1, F1. now rewrite firstn_all.
Qed.

(** * Triangulation *)

Section Tri.
Context (n : nat) (rows : list (list Z)) (Hrows : rows_ok n rows)
        (Hne : forall e row, nth_error rows e = Some row -> row <> []).

Record perm_ok (I : list Z) (perm : list Z) : Prop := {
  p_len : length perm = n;
  p_in : forall e q, nth_error perm e = Some q -> In (Z.of_nat e) I -> 0 <= q < len I;
  p_out : forall e q, nth_error perm e = Some q -> ~ In (Z.of_nat e) I -> q = -1;
  p_inj : forall e e' q, nth_error perm e = Some q -> nth_error perm e' = Some q -> 0 <= q -> e = e'
}.

Lemma perm_bounds I perm e q : perm_ok I perm -> nth_error perm e = Some q -> -1 <= q < len I.
Proof.
  intros P H. destruct (in_dec Z.eq_dec (Z.of_nat e) I) as [Hi|Hi].
  - apply (p_in _ _ P) in H; [lia|exact Hi].
  - apply (p_out _ _ P) in H; [|exact Hi]. unfold len. lia.
Qed.
Lemma perm_nonneg I perm e q : perm_ok I perm -> nth_error perm e = Some q -> 0 <= q -> In (Z.of_nat e) I.
Proof.
  intros P H Hq. destruct (in_dec Z.eq_dec (Z.of_nat e) I) as [Hi|Hi]; [exact Hi|].
  apply (p_out _ _ P) in H; [lia|exact Hi].
Qed.

Lemma tri_begin_ok I2 : forall I1 pre rest perm, perm_ok I1 perm -> NoDup (I1 ++ I2) ->
  (forall x, In x (I1 ++ I2) -> exists e, x = Z.of_nat e /\ (e < n)%nat) ->
  exists perm', tri_begin (pre ++ (I1 ++ I2) ++ rest) (len pre) (len I1) (length I2) perm = Ok perm' /\ perm_ok (I1 ++ I2) perm'.
Proof.
  induction I2 as [|x I2 IH]; intros I1 pre rest perm P ND R.
  - exists perm. rewrite app_nil_r. split; [reflexivity|exact P].
  - cbn [length tri_begin].
    assert (G : getz (pre ++ (I1 ++ x :: I2) ++ rest) (len pre + len I1) = Ok x).
    { rewrite <- app_assoc. cbn [app]. rewrite app_assoc. apply getz_mid. rewrite len_app. lia. }
    rewrite G. cbn [rbind]. destruct (R x) as (e & -> & He); [apply in_app_iff; right; now left|].
    rewrite setz_ok by (rewrite (p_len _ _ P); exact He). cbn [rbind].
    assert (Hx : ~ In (Z.of_nat e) I1).
    { apply NoDup_remove_2 in ND. rewrite in_app_iff in ND. tauto. }
    assert (P1 : perm_ok (I1 ++ [Z.of_nat e]) (put_at perm e (len I1))).
    { constructor.
      - rewrite put_at_length. exact (p_len _ _ P).
      - intros k q Hk Hin. rewrite put_at_nth in Hk. rewrite len_app, len1.
        destruct (Nat.eqb_spec e k) as [->|N].
        + destruct (Nat.ltb_spec k (length perm)); [|discriminate]. inversion Hk; subst. unfold len. lia.
        + apply in_app_iff in Hin as [Hin|[Hin|[]]]; [|lia]. apply (p_in _ _ P) in Hk; [lia|exact Hin].
      - intros k q Hk Hin. rewrite put_at_nth in Hk. rewrite in_app_iff in Hin.
        destruct (Nat.eqb_spec e k) as [->|N]; [exfalso; apply Hin; right; now left|].
        apply (p_out _ _ P k q Hk). tauto.
      - intros k k' q Hk Hk' Hq. rewrite put_at_nth in Hk, Hk'.
        destruct (Nat.eqb_spec e k) as [Ek|N]; destruct (Nat.eqb_spec e k') as [Ek'|N']; [congruence| | |].
        + destruct (Nat.ltb_spec e (length perm)); [|discriminate]. inversion Hk; subst q.
          exfalso. assert (B := perm_bounds _ _ _ _ P Hk'). lia.
        + destruct (Nat.ltb_spec e (length perm)); [|discriminate]. inversion Hk'; subst q.
          exfalso. assert (B := perm_bounds _ _ _ _ P Hk). lia.
        + apply (p_inj _ _ P k k' q Hk Hk' Hq). }
    destruct (IH (I1 ++ [Z.of_nat e]) pre rest _ P1) as (perm' & E & P').
    + rewrite <- app_assoc. exact ND.
    + intros y Hy. apply R. rewrite <- app_assoc in Hy. exact Hy.
    + rewrite len_app, len1 in E.
      replace ((I1 ++ [Z.of_nat e]) ++ I2) with (I1 ++ Z.of_nat e :: I2) in E, P' by (rewrite <- app_assoc; reflexivity).
      exists perm'. split; [exact E|exact P'].
Qed.

Lemma latest_ok I perm vars : perm_ok I perm -> Forall (fun x => -1 <= x < Z.of_nat n) vars ->
  forall m, -1 <= m < len I -> exists m', latest perm vars m = Ok m' /\ -1 <= m' < len I.
Proof.
  intros P. induction vars as [|v vars IH]; intros F m Hm; [exists m; auto|].
  inversion F as [|? ? Hv F']; subst. cbn [latest]. destruct (Z.ltb_spec v 0); [now apply IH|].
  destruct (nth_ex perm (Z.to_nat v)) as [q Hq]; [rewrite (p_len _ _ P); lia|].
  assert (G : getz perm v = Ok q) by (replace v with (Z.of_nat (Z.to_nat v)) by lia; now apply getz_some).
  rewrite G. cbn [rbind]. apply IH; [exact F'|]. assert (B := perm_bounds _ _ _ _ P Hq). destruct (m <? q); lia.
Qed.

Lemma tri_perm1_ok I perm e row : perm_ok I perm -> In (Z.of_nat e) I -> (e < n)%nat -> nth_error rows e = Some row ->
  exists perm', tri_perm1 perm (Z.of_nat e) row = Ok perm' /\ perm_ok I perm'.
Proof.
  intros P Hin He Hrow. destruct (proj2 Hrows e row Hrow) as [-> | (l & -> & F)].
  { now elim (Hne e [] Hrow). }
  cbn [tri_perm1]. rewrite Z.ltb_irrefl. unfold len at 1. rewrite Nat2Z.id, firstn_all.
  destruct (nth_ex perm e) as [pi Hpi]; [rewrite (p_len _ _ P); lia|].
  assert (Bp := p_in _ _ P _ _ Hpi Hin).
  destruct (latest_ok I perm l P F (-1)) as (m & E & Hm); [lia|]. rewrite E. cbn [rbind].
  rewrite (getz_some _ _ _ Hpi). cbn [rbind]. destruct (Z.ltb_spec m pi) as [Hlt|Hge]; [exists perm; auto|].
  set (g := fun p => if (pi <? p) && (p <=? m) then p - 1 else p).
  rewrite setz_ok by (rewrite map_length, (p_len _ _ P); exact He).
  eexists. split; [reflexivity|].
  assert (N : forall k, nth_error (put_at (map g perm) e m) k =
             if Nat.eqb e k then Some m else option_map g (nth_error perm k)).
  { intros k. rewrite put_at_nth, map_length, nth_error_map, (p_len _ _ P).
    destruct (Nat.eqb e k); [|reflexivity]. destruct (Nat.ltb_spec e n); [reflexivity|lia]. }
  assert (Hg : forall q, q <> pi -> (g q = q /\ (q < pi \/ m < q)) \/ (g q = q - 1 /\ pi < q <= m)).
  { intros q Hq. unfold g. destruct (Z.ltb_spec pi q); destruct (Z.leb_spec q m); cbn; lia. }
  assert (Hd : forall k q, e <> k -> nth_error perm k = Some q -> q <> pi).
  { intros k q Hk Hq ->. apply Hk. apply (p_inj _ _ P e k pi Hpi Hq). lia. }
  constructor.
  - rewrite put_at_length, map_length. exact (p_len _ _ P).
  - intros k q Hk Hki. rewrite N in Hk. destruct (Nat.eqb_spec e k) as [->|Ne]; [inversion Hk; subst; lia|].
    destruct (nth_error perm k) as [q0|] eqn:Q; [|discriminate]. cbn in Hk. inversion Hk; subst q.
    assert (B := p_in _ _ P _ _ Q Hki). destruct (Hg q0 (Hd k q0 Ne Q)) as [[-> ?]|[-> ?]]; lia.
  - intros k q Hk Hki. rewrite N in Hk. destruct (Nat.eqb_spec e k) as [->|Ne]; [now elim Hki|].
    destruct (nth_error perm k) as [q0|] eqn:Q; [|discriminate]. cbn in Hk. inversion Hk; subst q.
    assert (B := p_out _ _ P _ _ Q Hki). destruct (Hg q0 (Hd k q0 Ne Q)) as [[-> ?]|[-> ?]]; lia.
  - intros k k' q Hk Hk' Hq. rewrite N in Hk, Hk'.
    destruct (Nat.eqb_spec e k) as [Ek|Ne]; destruct (Nat.eqb_spec e k') as [Ek'|Ne']; [congruence| | |].
    + inversion Hk; subst q. destruct (nth_error perm k') as [q0|] eqn:Q; [|discriminate]. cbn in Hk'. inversion Hk'.
      exfalso. destruct (Hg q0 (Hd k' q0 Ne' Q)) as [[? ?]|[? ?]]; lia.
    + inversion Hk'; subst q. destruct (nth_error perm k) as [q0|] eqn:Q; [|discriminate]. cbn in Hk. inversion Hk.
      exfalso. destruct (Hg q0 (Hd k q0 Ne Q)) as [[? ?]|[? ?]]; lia.
    + destruct (nth_error perm k) as [q0|] eqn:Q; [|discriminate]. destruct (nth_error perm k') as [q1|] eqn:Q'; [|discriminate].
      cbn in Hk, Hk'. inversion Hk as [Hk0]. inversion Hk' as [Hk1].
      assert (D0 := Hd k q0 Ne Q). assert (D1 := Hd k' q1 Ne' Q').
      assert (q0 = q1) as <-. { destruct (Hg q0 D0) as [[? ?]|[? ?]]; destruct (Hg q1 D1) as [[? ?]|[? ?]]; lia. }
      apply (p_inj _ _ P k k' q0 Q Q'). destruct (Hg q0 D0) as [[? ?]|[? ?]]; lia.
Qed.

Lemma tri_pass_ok I2 : forall I1 pre rest perm, perm_ok (I1 ++ I2) perm ->
  (forall x, In x (I1 ++ I2) -> exists e, x = Z.of_nat e /\ (e < n)%nat) ->
  exists perm', tri_pass (pre ++ (I1 ++ I2) ++ rest) (len pre) (len I1) (length I2) rows perm = Ok perm' /\ perm_ok (I1 ++ I2) perm'.
Proof.
  induction I2 as [|x I2 IH]; intros I1 pre rest perm P R.
  - exists perm. split; [reflexivity|exact P].
  - cbn [length tri_pass].
    assert (G : getz (pre ++ (I1 ++ x :: I2) ++ rest) (len pre + len I1) = Ok x).
    { rewrite <- app_assoc. cbn [app]. rewrite app_assoc. apply getz_mid. rewrite len_app. lia. }
    rewrite G. cbn [rbind]. destruct (R x) as (e & -> & He); [apply in_app_iff; right; now left|].
    destruct (nth_ex rows e) as [row Hrow]; [destruct Hrows as [-> _]; exact He|].
    rewrite (getz_some _ _ _ Hrow). cbn [rbind].
    destruct (tri_perm1_ok _ perm e row P) as (perm1 & E1 & P1); [apply in_app_iff; right; now left|exact He|exact Hrow|].
    rewrite E1. cbn [rbind].
    replace (I1 ++ Z.of_nat e :: I2) with ((I1 ++ [Z.of_nat e]) ++ I2) in * by (rewrite <- app_assoc; reflexivity).
    destruct (IH (I1 ++ [Z.of_nat e]) pre rest perm1 P1 R) as (perm' & E & P').
    exists perm'. split; [|exact P']. rewrite len_app, len1 in E. exact E.
Qed.

Lemma tri_passes_ok k : forall I pre rest perm, perm_ok I perm ->
  (forall x, In x I -> exists e, x = Z.of_nat e /\ (e < n)%nat) ->
  exists perm', tri_passes k (pre ++ I ++ rest) (len pre) (len I) rows perm = Ok perm' /\ perm_ok I perm'.
Proof.
  induction k as [|k IH]; intros I pre rest perm P R; [exists perm; auto|].
  cbn [tri_passes]. unfold len at 2. rewrite Nat2Z.id.
  destruct (tri_pass_ok I [] pre rest perm P R) as (perm1 & E & P1). cbn [app] in E. rewrite len_nil in E.
  rewrite E. cbn [rbind]. apply IH; assumption.
Qed.

Lemma tri_end_ok pre T : 0 <= pre -> forall i so,
  (forall k q, nth_error T k = Some q -> 0 <= q -> pre + q < len so) ->
  (forall k k' q, nth_error T k = Some q -> nth_error T k' = Some q -> 0 <= q -> k = k') ->
  exists so', tri_end pre i T so = Ok so' /\ length so' = length so /\
    (forall k q, nth_error T k = Some q -> 0 <= q -> nth_error so' (Z.to_nat (pre + q)) = Some (i + Z.of_nat k)) /\
    (forall r, (forall k q, nth_error T k = Some q -> 0 <= q -> r <> Z.to_nat (pre + q)) -> nth_error so' r = nth_error so r).
Proof.
  intros Hpre. induction T as [|q T IH]; intros i so B J.
  - exists so. split; [reflexivity|]. split; [reflexivity|]. split; [intros [|k] ? ?; discriminate|]. reflexivity.
  - cbn [tri_end].
    assert (exists so1, (if 0 <=? q then setz so (pre + q) i else Ok so) = Ok so1 /\ length so1 = length so /\
              (0 <= q -> nth_error so1 (Z.to_nat (pre + q)) = Some i) /\
              (forall r, (0 <= q -> r <> Z.to_nat (pre + q)) -> nth_error so1 r = nth_error so r)) as (so1 & E1 & L1 & A1 & B1).
    { destruct (Z.leb_spec 0 q) as [Hq|Hq].
      - assert (Hb := B 0%nat q eq_refl Hq). unfold len in Hb.
        assert (G : setz so (pre + q) i = Ok (put_at so (Z.to_nat (pre + q)) i)).
        { rewrite <- (Z2Nat.id (pre + q)) at 1 by lia. apply setz_ok. lia. }
        rewrite G.
        eexists. split; [reflexivity|]. split; [apply put_at_length|]. split.
        + intros _. apply put_at_same. lia.
        + intros r Hr. apply put_at_other. specialize (Hr Hq). congruence.
      - exists so. split; [reflexivity|]. split; [reflexivity|]. split; [lia|]. reflexivity. }
    rewrite E1. cbn [rbind]. destruct (IH (i + 1) so1) as (so' & E & L & A & C).
    + intros k q' Hk Hq'. unfold len. rewrite L1. exact (B (S k) q' Hk Hq').
    + intros k k' q' Hk Hk' Hq'. assert (Q := J (S k) (S k') q' Hk Hk' Hq'). lia.
    + exists so'. split; [exact E|]. split; [congruence|]. split.
      * intros [|k] q' Hk Hq'.
        -- cbn in Hk. inversion Hk; subst q'. rewrite C.
           ++ rewrite A1 by exact Hq'. f_equal. lia.
           ++ intros k' q' Hk' Hq'' Hr. assert (q' = q) by lia. subst q'.
              assert (Q := J 0%nat (S k') q eq_refl Hk' Hq''). discriminate Q.
        -- rewrite (A k q' Hk Hq'). f_equal. lia.
      * intros r Hr. rewrite C, B1; [reflexivity| |].
        -- intros Hq. apply (Hr 0%nat q eq_refl Hq).
        -- intros k' q' Hk' Hq'. apply (Hr (S k') q' Hk' Hq').
Qed.

Lemma nth_error_ext {A} (a b : list A) : (forall k, nth_error a k = nth_error b k) -> a = b.
Proof.
  revert b. induction a as [|x a IH]; intros [|y b] H; [reflexivity|discriminate (H 0%nat)|discriminate (H 0%nat)|].
  assert (H0 := H 0%nat). cbn in H0. inversion H0; subst. f_equal. apply IH. intros k. exact (H (S k)).
Qed.
Lemma nth_error_firstn_ {A} (l : list A) k r : nth_error (firstn k l) r = if Nat.ltb r k then nth_error l r else None.
Proof.
  revert k r. induction l as [|x l IH]; intros [|k] [|r]; try reflexivity.
  - cbn [firstn nth_error]. destruct (Nat.ltb (S r) (S k)); reflexivity.
  - change (Nat.ltb (S r) (S k)) with (Nat.ltb r k). apply IH.
Qed.
Lemma nth_error_skipn_ {A} (l : list A) k r : nth_error (skipn k l) r = nth_error l (k + r).
Proof. revert k. induction l as [|x l IH]; intros [|k]; cbn; auto. now destruct r. Qed.

Lemma compute_tri_ok I pre rest passes : NoDup I -> (forall x, In x I -> exists e, x = Z.of_nat e /\ (e < n)%nat) ->
  exists I', compute_tri rows (pre ++ I ++ rest) (len pre) (len I) passes = Ok (pre ++ I' ++ rest) /\ Permutation I I'.
Proof.
  intros ND R. unfold compute_tri. unfold len at 2. rewrite Nat2Z.id.
  destruct (tri_begin_ok I [] pre rest (map (fun _ => -1) rows)) as (p0 & E0 & P0).
  { assert (M : forall e q, nth_error (map (fun _ : list Z => -1) rows) e = Some q -> q = -1).
    { intros e q H. apply nth_error_In, in_map_iff in H as (? & <- & _). reflexivity. }
    constructor.
    - rewrite map_length. apply Hrows.
    - intros e q _ [].
    - intros e q H _. eapply M; eauto.
    - intros e e' q H _ Hq. apply M in H. lia. }
  { exact ND. } { exact R. }
  cbn [app] in E0, P0. rewrite len_nil in E0. rewrite E0. cbn [rbind].
  destruct (tri_passes_ok passes I pre rest p0 P0 R) as (p1 & E1 & P1). rewrite E1. cbn [rbind].
  assert (Hpre : 0 <= len pre) by (unfold len; lia).
  destruct (tri_end_ok (len pre) p1 Hpre 0 (pre ++ I ++ rest)) as (so & E & L & A & C).
  { intros k q Hk Hq. assert (B := perm_bounds _ _ _ _ P1 Hk). rewrite !len_app. unfold len in *. lia. }
  { apply (p_inj _ _ P1). }
  rewrite E. set (I' := firstn (length I) (skipn (length pre) so)).
  assert (Out : forall r, (r < length pre \/ length pre + length I <= r)%nat -> nth_error so r = nth_error (pre ++ I ++ rest) r).
  { intros r Hr. apply C. intros k q Hk Hq. assert (B := perm_bounds _ _ _ _ P1 Hk). unfold len in *. lia. }
  assert (Eso : so = pre ++ I' ++ rest).
  { rewrite <- (firstn_skipn (length pre) so) at 1. f_equal.
    - apply nth_error_ext. intros r. rewrite nth_error_firstn_. destruct (Nat.ltb_spec r (length pre)).
      + rewrite Out by (now left). now rewrite nth_error_app1.
      + symmetry. now apply nth_error_None.
    - rewrite <- (firstn_skipn (length I) (skipn (length pre) so)) at 1. f_equal.
      apply nth_error_ext. intros r. rewrite !nth_error_skipn_. rewrite Out by lia.
      rewrite nth_error_app2 by lia. rewrite nth_error_app2 by lia. f_equal. lia. }
  exists I'. split; [now rewrite Eso|]. apply NoDup_Permutation_bis; [exact ND| |].
  - unfold I'. apply firstn_le_length.
  - intros x Hx. destruct (R x Hx) as (e & -> & He). destruct (nth_ex p1 e) as [q Hq]; [rewrite (p_len _ _ P1); exact He|].
    assert (B := p_in _ _ P1 _ _ Hq Hx). apply (nth_error_In I' (Z.to_nat q)).
    unfold I'. rewrite nth_error_firstn_, nth_error_skipn_. unfold len in B.
    destruct (Nat.ltb_spec (Z.to_nat q) (length I)); [|lia].
    replace (length pre + Z.to_nat q)%nat with (Z.to_nat (len pre + q)) by (unfold len; lia).
    rewrite (A e q Hq); [reflexivity|lia].
Qed.
End Tri.
