(** Lemmas about periods and samples. *)
From Coq Require Import ZArith Ascii String List Bool Lia ZifyBool.
From Verif Require Import M_Base M_Time S_Time.
Import ListNotations.
Open Scope Z_scope.
Ltac Zify.zify_post_hook ::= Z.to_euclidean_division_equations.

Lemma sub_nb ch nb : sub_periods ch nb -> nb_per_year ch = Ok nb.
Proof. intros H; destruct H; reflexivity. Qed.

Lemma sub_pos ch nb : sub_periods ch nb -> 1 <= nb.
Proof. intros H; destruct H; lia. Qed.

Lemma sub_det ch a b : sub_periods ch a -> sub_periods ch b -> a = b.
Proof. intros H1 H2. apply sub_nb in H1, H2. congruence. Qed.

Definition ord (nb : Z) (p : period) : Z := nb * year p + step p.

Lemma ord_inj ch nb p q : sub_periods ch nb -> per p = ch -> per q = ch ->
  1 <= step p <= nb -> 1 <= step q <= nb -> ord nb p = ord nb q -> p = q.
Proof.
  intros Hs Hp Hq Bp Bq E. destruct p as [y s c], q as [y' s' c']. cbn in *. subst.
  unfold ord in E; cbn in E.
  assert (y = y') by (destruct Hs; nia).
  subst. f_equal; lia.
Qed.

Lemma valid_inv p nb : valid_period p -> sub_periods (per p) nb -> 1 <= step p <= nb.
Proof. intros (nb' & H & B) H'. rewrite (sub_det _ _ _ H' H). exact B. Qed.

Lemma valid_inv2 p c nb : valid_period p -> per p = c -> sub_periods c nb -> 1 <= step p <= nb.
Proof. intros V <- H. apply valid_inv; auto. Qed.

Lemma valid_inj p q nb : sub_periods (per p) nb -> per q = per p -> valid_period p -> valid_period q ->
  ord nb p = ord nb q -> p = q.
Proof.
  intros Hs E Vp Vq O.
  eapply ord_inj; eauto using valid_inv.
  apply valid_inv; auto. rewrite E; auto.
Qed.

Lemma shift_spec p n nb : sub_periods (per p) nb -> 1 <= step p <= nb ->
  exists q, shift p n = Ok q /\ per q = per p /\ 1 <= step q <= nb /\ ord nb q = ord nb p + n.
Proof.
  intros Hs B. unfold shift. rewrite (sub_nb _ _ Hs). cbn [rbind].
  destruct p as [y s c]. cbn [year step per] in *.
  destruct (0 <=? n) eqn:En.
  - eexists; split; [reflexivity|]. cbn [year step per]. unfold ord; cbn [year step per].
    split; [reflexivity|].
    destruct Hs; lia.
  - destruct (s + n <=? 0) eqn:Es; (eexists; split; [reflexivity|]);
      cbn [year step per]; unfold ord; cbn [year step per]; (split; [reflexivity|]);
      destruct Hs; lia.
Qed.

Lemma difference_spec p q nb : sub_periods (per p) nb -> per q = per p ->
  difference p q = Ok (ord nb p - ord nb q).
Proof.
  intros Hs E. unfold difference. rewrite E, Ascii.eqb_refl. cbn [negb].
  rewrite (sub_nb _ _ Hs). cbn [rbind]. f_equal. unfold ord. lia.
Qed.

Lemma difference_throw p q : per p <> per q -> difference p q = Throw.
Proof.
  intros H. unfold difference. destruct (Ascii.eqb_spec (per p) (per q)); [contradiction|reflexivity].
Qed.

Lemma follows_spec p q : follows p q ->
  exists nb, sub_periods (per p) nb /\ per q = per p /\ 1 <= step p <= nb /\ 1 <= step q <= nb /\
             ord nb q = ord nb p + 1.
Proof.
  intros H; destruct H as [y s ch nb Hs B | y ch nb Hs]; exists nb; unfold ord; cbn;
    pose proof (sub_pos _ _ Hs); repeat split; auto; lia.
Qed.

Lemma follows_total p : valid_period p -> exists q, follows p q /\ valid_period q /\ per q = per p.
Proof.
  intros (nb & Hs & B). destruct p as [y s ch]; cbn in *.
  destruct (Z.eq_dec s nb) as [->|N].
  - exists (mkP (y+1) 1 ch). split; [econstructor; eauto|]. split; [|reflexivity].
    exists nb; cbn; split; auto. lia.
  - exists (mkP y (s+1) ch). split; [econstructor; eauto; lia|]. split; [|reflexivity].
    exists nb; cbn; split; auto. lia.
Qed.

Lemma steps_ord n p q : steps n p q -> valid_period p ->
  forall nb, sub_periods (per p) nb -> per q = per p /\ valid_period q /\ ord nb q = ord nb p + Z.of_nat n.
Proof.
  induction 1 as [p | n p q r F St IH]; intros V nb Hs.
  - repeat split; auto. lia.
  - destruct (follows_spec _ _ F) as (nb' & Hs' & E & Bp & Bq & O).
    rewrite (sub_det _ _ _ Hs' Hs) in *.
    assert (V' : valid_period q) by (exists nb; rewrite E; auto).
    assert (Hq : sub_periods (per q) nb) by (rewrite E; auto).
    destruct (IH V' nb Hq) as (E2 & V2 & O2). repeat split; auto; try congruence. lia.
Qed.

Lemma ord_steps n : forall p q nb, sub_periods (per p) nb -> valid_period p -> valid_period q ->
  per q = per p -> ord nb q = ord nb p + Z.of_nat n -> steps n p q.
Proof.
  induction n as [|n IH]; intros p q nb Hs Vp Vq E O.
  - assert (p = q) as ->. { eapply valid_inj with (nb:=nb); auto; try congruence. lia. } constructor.
  - destruct (follows_total p Vp) as (r & F & Vr & Er).
    destruct (follows_spec _ _ F) as (nb' & Hs' & E' & _ & _ & O').
    rewrite (sub_det _ _ _ Hs' Hs) in *.
    econstructor; [exact F|]. apply (IH r q nb); auto; try congruence. lia.
Qed.

Lemma distance_iff n p q nb : sub_periods (per p) nb -> valid_period p -> valid_period q ->
  per q = per p -> (distance n p q <-> ord nb q = ord nb p + n).
Proof.
  intros Hs Vp Vq E. unfold distance. split.
  - intros [[H St]|[H St]].
    + destruct (steps_ord _ _ _ St Vp nb Hs) as (_ & _ & O). lia.
    + assert (Hq : sub_periods (per q) nb) by (rewrite E; auto).
      destruct (steps_ord _ _ _ St Vq nb Hq) as (_ & _ & O). lia.
  - intros O. destruct (Z_lt_le_dec n 0) as [H|H].
    + right. split; [lia|]. apply (ord_steps _ _ _ nb); auto. rewrite E; auto. lia.
    + left. split; [lia|]. apply (ord_steps _ _ _ nb); auto. lia.
Qed.

Lemma valid_mk p nb : sub_periods (per p) nb -> 1 <= step p <= nb -> valid_period p.
Proof. intros; exists nb; auto. Qed.

Lemma shift_valid p n : valid_period p ->
  exists q, shift p n = Ok q /\ valid_period q /\ per q = per p /\ distance n p q /\ difference q p = Ok n.
Proof.
  intros V. pose proof V as (nb & Hs & B).
  destruct (shift_spec p n nb Hs B) as (q & Sq & E & Bq & O).
  assert (Hq : sub_periods (per q) nb) by (rewrite E; auto).
  assert (Vq : valid_period q) by (exists nb; auto).
  exists q. repeat split; auto.
  - apply (distance_iff n p q nb); auto.
  - rewrite (difference_spec q p nb); auto. f_equal; lia.
Qed.

Lemma shift_compose p a b : valid_period p ->
  (do q <- shift p a; shift q b) = shift p (a + b).
Proof.
  intros V. pose proof V as (nb & Hs & B).
  destruct (shift_spec p a nb Hs B) as (q & Sq & E & Bq & O).
  assert (Hq : sub_periods (per q) nb) by (rewrite E; auto).
  destruct (shift_spec q b nb Hq Bq) as (r & Sr & Er & Br & Or).
  destruct (shift_spec p (a+b) nb Hs B) as (r' & Sr' & Er' & Br' & Or').
  rewrite Sq. cbn [rbind]. rewrite Sr, Sr'. f_equal.
  apply (ord_inj (per p) nb); auto; try congruence. lia.
Qed.

Lemma shift_zero p : valid_period p -> shift p 0 = Ok p.
Proof.
  intros V. pose proof V as (nb & Hs & B).
  destruct (shift_spec p 0 nb Hs B) as (q & Sq & E & Bq & O). rewrite Sq. f_equal.
  apply (ord_inj (per p) nb); auto. lia.
Qed.

Lemma difference_laws p q r : valid_period p -> valid_period q -> valid_period r ->
  per q = per p -> per r = per p ->
  exists a b, difference p q = Ok a /\ difference q p = Ok (- a) /\ difference q r = Ok b /\
    difference p r = Ok (a + b) /\ (a = 0 <-> period_eqb p q = true) /\
    distance a q p /\ shift q a = Ok p.
Proof.
  intros Vp Vq Vr E1 E2. pose proof Vp as (nb & Hs & B).
  assert (Hq : sub_periods (per q) nb) by (rewrite E1; auto).
  assert (Bq : 1 <= step q <= nb) by (apply valid_inv; auto).
  exists (ord nb p - ord nb q), (ord nb q - ord nb r).
  rewrite !(difference_spec p _ nb), !(difference_spec q _ nb) by (auto; congruence).
  split; [reflexivity|]. split; [f_equal; lia|]. split; [reflexivity|]. split; [f_equal; lia|].
  split; [|split].
  - split.
    + intros H. assert (p = q) as -> by (eapply valid_inj with (nb:=nb); eauto; lia).
      unfold period_eqb. rewrite !Z.eqb_refl, Ascii.eqb_refl. reflexivity.
    + unfold period_eqb. rewrite !andb_true_iff, !Z.eqb_eq, Ascii.eqb_eq. unfold ord. intros [[-> ?] ->]. lia.
  - apply (distance_iff _ q p nb); auto. lia.
  - destruct (shift_spec q (ord nb p - ord nb q) nb Hq Bq) as (p' & Sp & Ep & Bp & O).
    rewrite Sp. f_equal. apply (ord_inj (per q) nb); auto. lia.
Qed.

(** ** Decimal text *)

Lemma code_chr z : 0 <= z < 256 -> code (chr z) = z.
Proof. intros H. unfold code, chr. rewrite N_ascii_embedding by lia. lia. Qed.

Lemma code_inj a b : code a = code b -> a = b.
Proof.
  unfold code. intros H. apply N2Z.inj in H.
  rewrite <- (ascii_N_embedding a), <- (ascii_N_embedding b). congruence.
Qed.

Lemma isdigit_chr d : 0 <= d < 10 -> isdigit (chr (48 + d)) = true.
Proof. intros H. unfold isdigit. rewrite code_chr by lia. lia. Qed.

Lemma read_digits_app s : forall d acc cnt, isdigit d = true ->
  read_digits (d :: s) acc cnt = read_digits s (acc * 10 + (code d - 48)) (S cnt).
Proof. intros. cbn. rewrite H. reflexivity. Qed.

Definition stops (s : str) := match s with [] => True | c :: _ => isdigit c = false end.

Lemma read_digits_stop s acc cnt : stops s -> read_digits s acc cnt = (acc, cnt).
Proof. destruct s as [|c s]; cbn; auto. intros ->; reflexivity. Qed.

(** [dec_aux] pushes the digits of [n] in front of the accumulator. *)
Fixpoint ndig (fuel : nat) (n : Z) : nat :=
  match fuel with O => O | S f => if n <? 10 then 1%nat else S (ndig f (n / 10)) end.

Lemma dec_aux_app fuel : forall n acc, dec_aux fuel n acc = dec_aux fuel n [] ++ acc.
Proof.
  induction fuel as [|f IH]; intros n acc; cbn; [reflexivity|].
  destruct (n <? 10); [reflexivity|].
  rewrite IH, (IH _ [chr (48 + n mod 10)]), <- app_assoc. reflexivity.
Qed.

Lemma dec_aux_read fuel : forall n a c tl, 0 <= n -> n < 2 ^ (Z.of_nat fuel) -> (1 <= fuel)%nat ->
  exists k, (1 <= k)%nat /\
  read_digits (dec_aux fuel n [] ++ tl) a c = read_digits tl (a * 10 ^ (Z.of_nat k) + n) (k + c) /\
  length (dec_aux fuel n []) = k /\ n < 10 ^ Z.of_nat k /\ (10 ^ (Z.of_nat k - 1) <= n \/ k = 1%nat).
Proof.
  induction fuel as [|f IH]; intros n a c tl Hn Hb Hf; [lia|].
  cbn [dec_aux]. destruct (n <? 10) eqn:E.
  - exists 1%nat. split; [lia|]. assert (n mod 10 = n) as -> by (apply Z.mod_small; lia).
    cbn [app length]. rewrite read_digits_app by (apply isdigit_chr; lia).
    rewrite code_chr by lia. split; [f_equal; lia|]. split; [auto|]. split; [cbn; lia|auto].
  - rewrite dec_aux_app, <- app_assoc.
    assert (Hf' : (1 <= f)%nat). { destruct f; [|lia]. cbn in Hb. lia. }
    assert (Hp : 2 ^ Z.of_nat (S f) = 2 * 2 ^ Z.of_nat f) by (rewrite Nat2Z.inj_succ, Z.pow_succ_r by lia; lia).
    destruct (IH (n / 10) a c ([chr (48 + n mod 10)] ++ tl)) as (k & K1 & R & L & B1 & B2); try lia.
    exists (S k). split; [lia|].
    rewrite R. cbn [app]. rewrite read_digits_app by (apply isdigit_chr; lia).
    rewrite code_chr by lia.
    assert (P : 10 ^ Z.of_nat (S k) = 10 * 10 ^ Z.of_nat k) by (rewrite Nat2Z.inj_succ, Z.pow_succ_r by lia; lia).
    split. { f_equal. rewrite P. lia. }
    rewrite app_length, L. cbn [length]. split; [lia|]. split; [rewrite P; lia|].
    left. replace (Z.of_nat (S k) - 1) with (Z.of_nat k) by lia.
    destruct B2 as [B2|B2].
    + assert (10 ^ Z.of_nat k = 10 * 10 ^ (Z.of_nat k - 1)).
      { replace (Z.of_nat k) with (Z.succ (Z.of_nat k - 1)) at 1 by lia. rewrite Z.pow_succ_r by lia. lia. }
      lia.
    + rewrite B2. change (10 ^ Z.of_nat 1) with 10. lia.
Qed.

Lemma dec_nonneg_read n a c tl : 0 <= n ->
  exists k, (1 <= k)%nat /\
  read_digits (dec_nonneg n ++ tl) a c = read_digits tl (a * 10 ^ (Z.of_nat k) + n) (k + c) /\
  length (dec_nonneg n) = k /\ n < 10 ^ Z.of_nat k /\ (10 ^ (Z.of_nat k - 1) <= n \/ k = 1%nat).
Proof.
  intros H. unfold dec_nonneg. apply dec_aux_read; [lia| |lia].
  destruct (Z.eq_dec n 0) as [->|N]; [cbn; lia|].
  pose proof (Z.log2_spec n ltac:(lia)) as [_ U].
  rewrite Nat2Z.inj_succ, Z2Nat.id by apply Z.log2_nonneg. exact U.
Qed.

Lemma dec_aux_digits fuel : forall n, 0 <= n -> Forall (fun c => isdigit c = true) (dec_aux fuel n []).
Proof.
  induction fuel as [|f IH]; intros n H; cbn; [constructor|].
  assert (isdigit (chr (48 + n mod 10)) = true) by (apply isdigit_chr; lia).
  destruct (n <? 10); [auto|]. rewrite dec_aux_app. apply Forall_app; split; [apply IH; lia|auto].
Qed.

Lemma dec_nonneg_digits n : 0 <= n -> Forall (fun c => isdigit c = true) (dec_nonneg n).
Proof. apply dec_aux_digits. Qed.

Lemma digit_not_space c : isdigit c = true -> isspace c = false /\ (code c =? 45) = false /\ (code c =? 43) = false.
Proof. unfold isdigit, isspace. lia. Qed.

Lemma stoi_digits s v c : (1 <= c)%nat -> read_digits s 0 0 = (v, c) -> 0 <= v <= 2147483647 ->
  (exists d r, s = d :: r /\ isdigit d = true) -> stoi s = Ok v.
Proof.
  intros Hc R B (d & r & -> & D). unfold stoi.
  destruct (digit_not_space d D) as (S1 & S2 & S3).
  cbn [skip_spaces]. rewrite S1, S2, S3. rewrite R.
  destruct c; [lia|]. replace ((-2147483648 <=? v) && (v <=? 2147483647)) with true by lia. reflexivity.
Qed.

Lemma dec_nonneg_cons n : 0 <= n -> exists d r, dec_nonneg n = d :: r /\ isdigit d = true.
Proof.
  intros H. destruct (dec_nonneg_read n 0 0 [] H) as (k & K & _ & L & _).
  pose proof (dec_nonneg_digits n H) as F.
  destruct (dec_nonneg n) as [|d r] eqn:E; cbn in L; [lia|]. inversion F; subst. eauto.
Qed.

Lemma stoi_dec n tl : 0 <= n <= 2147483647 -> stops tl -> stoi (dec_nonneg n ++ tl) = Ok n.
Proof.
  intros H St. destruct (dec_nonneg_read n 0 0 tl ltac:(lia)) as (k & K & R & L & _).
  rewrite (read_digits_stop tl) in R by auto.
  eapply stoi_digits; [|rewrite R; f_equal; lia|lia|].
  - lia.
  - destruct (dec_nonneg_cons n ltac:(lia)) as (d & r & E & D). rewrite E. cbn; eauto.
Qed.

Lemma dec4 y : 1000 <= y <= 9999 -> exists a b c d,
  dec_nonneg y = [a; b; c; d] /\ isdigit a = true /\ isdigit b = true /\ isdigit c = true /\ isdigit d = true.
Proof.
  intros H. destruct (dec_nonneg_read y 0 0 [] ltac:(lia)) as (k & K & _ & L & B1 & B2).
  assert (k = 4%nat).
  { destruct k as [|[|[|[|[|k]]]]]; try (cbn in B1, B2; lia).
    exfalso. clear L B1 K. destruct B2 as [B2|B2]; [|lia].
    assert (P : 10 ^ 4 <= 10 ^ (Z.of_nat (S (S (S (S (S k))))) - 1)) by (apply Z.pow_le_mono_r; lia).
    change (10 ^ 4) with 10000 in P. lia. }
  subst k. pose proof (dec_nonneg_digits y ltac:(lia)) as F.
  destruct (dec_nonneg y) as [|a [|b [|c [|d [|e l]]]]]; cbn in H0; try lia.
  repeat match goal with H : Forall _ (_ :: _) |- _ => inversion H; clear H; subst end.
  exists a, b, c, d. auto.
Qed.

Lemma sub_upper ch nb : sub_periods ch nb -> toupper ch = ch /\ (code ch =? 0) = false /\ isdigit ch = false.
Proof. intros H; destruct H; auto. Qed.

Lemma parse_print p : valid_period p -> 1000 <= year p <= 9999 ->
  parse_period (period_to_string p) = Ok p.
Proof.
  intros (nb & Hs & B) Y. destruct p as [y s ch]; cbn [year step per] in *.
  destruct (sub_upper _ _ Hs) as (U & N0 & ND).
  assert (nb <= 365) by (destruct Hs; lia).
  unfold period_to_string. cbn [year step per]. rewrite N0.
  replace (y =? 0) with false by lia. replace (s =? 0) with false by lia. cbn [orb].
  unfold to_string. replace (y <? 0) with false by lia. replace (s <? 0) with false by lia.
  destruct (dec4 y Y) as (a & b & c & d & E & Da & Db & Dc & Dd).
  pose proof (stoi_dec y [] ltac:(lia) I) as SY. rewrite app_nil_r in SY.
  rewrite E in *. cbn [app parse_period char_at nth].
  rewrite Da, Db, Dc, Dd. cbn [andb negb].
  change (char_at (a :: b :: c :: d :: ch :: dec_nonneg s) 4) with ch.
  rewrite U. rewrite (sub_nb _ _ Hs). cbn [rbind firstn]. rewrite SY. cbn [rbind].
  replace (y <? 50) with false by lia. replace (y <? 200) with false by lia.
  cbn [length Nat.eqb skipn].
  pose proof (stoi_dec s [] ltac:(lia) I) as SS. rewrite app_nil_r in SS. rewrite SS. cbn [rbind].
  replace (nb <? s) with false by lia. reflexivity.
Qed.

Lemma print_inj p q : valid_period p -> valid_period q -> 1000 <= year p <= 9999 -> 1000 <= year q <= 9999 ->
  period_to_string p = period_to_string q -> p = q.
Proof.
  intros Vp Vq Yp Yq E. apply parse_print in Vp; auto. apply parse_print in Vq; auto. congruence.
Qed.

Lemma nb_sub ch nb : nb_per_year ch = Ok nb -> toupper ch = ch -> sub_periods ch nb.
Proof.
  unfold nb_per_year. intros H U. rewrite U in H.
  destruct (code ch =? 0); [discriminate|].
  repeat match type of H with
  | (if code ch =? ?k then _ else _) = _ =>
    destruct (code ch =? k) eqn:E; [apply Z.eqb_eq in E; injection H as <-;
      change k with (code (chr k)) in E; apply code_inj in E; subst ch; constructor|clear E]
  end. discriminate.
Qed.

Lemma isdigit_range c : isdigit c = true -> 0 <= code c - 48 <= 9.
Proof. unfold isdigit; lia. Qed.

Lemma toupper_idem c : toupper (toupper c) = toupper c.
Proof.
  unfold toupper at 1. destruct (islower (toupper c)) eqn:E; [|reflexivity].
  exfalso. revert E. unfold toupper. destruct (islower c) eqn:L.
  - unfold islower in *. rewrite code_chr by lia. lia.
  - congruence.
Qed.

Lemma parse_accepts s p : parse_period s = Ok p ->
  exists nb, sub_periods (per p) nb /\ step p <= nb /\ 200 <= year p <= 9999.
Proof.
  unfold parse_period. destruct s as [|a s]; [discriminate|].
  remember (a :: s) as t. clear Heqt.
  destruct (isdigit (char_at t 0) && isdigit (char_at t 1) && isdigit (char_at t 2) && isdigit (char_at t 3)) eqn:D;
    cbn [negb]; [|discriminate].
  destruct (nb_per_year (toupper (char_at t 4))) as [nb| |] eqn:N; cbn [rbind]; [|discriminate..].
  destruct (stoi (firstn 4 t)) as [y0| |] eqn:Y; cbn [rbind]; [|discriminate..].
  destruct (if Nat.eqb (length t) 4 then Ok 1 else stoi (skipn 5 t)) as [st| |]; cbn [rbind]; [|discriminate..].
  destruct (nb <? st) eqn:B; [discriminate|]. intros H; injection H as <-. cbn [per step year].
  exists nb. split; [apply nb_sub; auto; apply toupper_idem|]. split; [lia|].
  destruct t as [|a0 [|a1 [|a2 [|a3 t]]]]; cbn [char_at nth] in D;
    try (exfalso; revert D; unfold char_at; cbn; rewrite ?andb_false_r; discriminate).
  unfold char_at in D; cbn in D.
  apply andb_true_iff in D as [D D3]. apply andb_true_iff in D as [D D2]. apply andb_true_iff in D as [D0 D1].
  assert (y0 = code a0 * 1000 + code a1 * 100 + code a2 * 10 + code a3 - 53328) as ->.
  { cbn [firstn] in Y. unfold stoi in Y. cbn [skip_spaces] in Y.
    destruct (digit_not_space a0 D0) as (S1 & S2 & S3). rewrite S1, S2, S3 in Y.
    cbn [read_digits] in Y. rewrite D0, D1, D2, D3 in Y.
    match type of Y with (if ?b then _ else _) = _ => destruct b; [|discriminate] end.
    injection Y as <-. lia. }
  apply isdigit_range in D0, D1, D2, D3.
  repeat match goal with |- context[if ?b then _ else _] => destruct b eqn:? end; lia.
Qed.

(** ** Samples *)

Lemma to_short_id z : -32768 <= z <= 32767 -> to_short z = z.
Proof. intros H. unfold to_short. rewrite Z.mod_small by lia. lia. Qed.

(** A sample whose count did not overflow. *)
Lemma make_sample_spec a b nb : sub_periods (per a) nb -> valid_period a -> valid_period b -> per b = per a ->
  make_sample a b = if ord nb b - ord nb a <? 0 then Throw else Ok (mkS a b (to_short (ord nb b - ord nb a + 1))).
Proof.
  intros Hs Va Vb E. unfold make_sample. rewrite (difference_spec b a nb) by (congruence || (rewrite E; auto)).
  reflexivity.
Qed.

Lemma steps_ex n a b nb : sub_periods (per a) nb -> valid_period a -> valid_period b -> per b = per a ->
  (steps n a b <-> ord nb b = ord nb a + Z.of_nat n).
Proof.
  intros Hs Va Vb E. split.
  - intros St. apply (steps_ord _ _ _ St Va nb Hs).
  - intros O. apply (ord_steps _ _ _ nb); auto.
Qed.

Lemma between_iff a b p nb : sub_periods (per a) nb -> valid_period a -> valid_period b -> per b = per a ->
  (between a b p <-> valid_period p /\ per p = per a /\ ord nb a <= ord nb p <= ord nb b).
Proof.
  intros Hs Va Vb E. split.
  - intros (i & j & S1 & S2). destruct (steps_ord _ _ _ S1 Va nb Hs) as (E1 & V1 & O1).
    assert (Hp : sub_periods (per p) nb) by (rewrite E1; auto).
    destruct (steps_ord _ _ _ S2 V1 nb Hp) as (_ & _ & O2).
    repeat split; auto; lia.
  - intros (Vp & Ep & O).
    exists (Z.to_nat (ord nb p - ord nb a)), (Z.to_nat (ord nb b - ord nb p)). split.
    + apply (ord_steps _ _ _ nb); auto. lia.
    + apply (ord_steps _ _ _ nb); auto; try congruence. lia.
Qed.

Lemma seqZ_nth n : forall from i d, (i < n)%nat -> nth i (seqZ from n) d = from + Z.of_nat i.
Proof.
  induction n as [|n IH]; intros from i d H; [lia|]. destruct i as [|i]; cbn; [lia|].
  rewrite IH by lia. lia.
Qed.

Lemma seqZ_length n : forall from, length (seqZ from n) = n.
Proof. induction n; intros; cbn; auto. Qed.

Lemma seqZ_in n : forall from z, In z (seqZ from n) <-> from <= z < from + Z.of_nat n.
Proof.
  induction n as [|n IH]; intros from z; cbn [seqZ In]; [lia|]. rewrite IH. lia.
Qed.

Lemma mapM_spec {A B} (f : A -> res B) (g : A -> B) l :
  (forall a, In a l -> f a = Ok (g a)) -> mapM f l = Ok (map g l).
Proof.
  induction l as [|a l IH]; cbn; intros H; [reflexivity|].
  rewrite H by auto. cbn. rewrite IH by auto. reflexivity.
Qed.

Definition shift_of (p : period) (t : Z) : period :=
  match shift p t with Ok q => q | _ => p end.

Lemma position_spec s p nb : sub_periods (per (s_start s)) nb -> per p = per (s_start s) ->
  position s p = (let t := ord nb p - ord nb (s_start s) in
                  if (t <? 0) || (s_nb s <=? t) then Throw else Ok t).
Proof.
  intros Hs E. unfold position. rewrite (difference_spec p _ nb) by (congruence || (rewrite E; auto)). reflexivity.
Qed.

Lemma position_shift s : sample_ok s ->
  (forall i, 0 <= i < s_nb s -> exists q, shift (s_start s) i = Ok q /\ position s q = Ok i) /\
  (forall p, valid_period p -> per p = per (s_start s) ->
     (between (s_start s) (s_end s) p -> exists i, position s p = Ok i /\ 0 <= i < s_nb s /\ shift (s_start s) i = Ok p) /\
     (~ between (s_start s) (s_end s) p -> position s p = Throw)).
Proof.
  intros (n & Hn & Va & Vb & St & Nb). pose proof Va as (nb & Hs & B).
  destruct (steps_ord _ _ _ St Va nb Hs) as (E & _ & O).
  split.
  - intros i Hi. destruct (shift_spec (s_start s) i nb Hs B) as (q & Sq & Eq & Bq & Oq).
    exists q. split; auto. rewrite (position_spec s q nb) by auto. cbn zeta.
    replace (ord nb q - ord nb (s_start s)) with i by lia.
    replace ((i <? 0) || (s_nb s <=? i)) with false by lia. reflexivity.
  - intros p Vp Ep. rewrite (between_iff _ _ p nb) by auto. rewrite (position_spec s p nb) by auto. cbn zeta.
    split.
    + intros (_ & _ & Op). exists (ord nb p - ord nb (s_start s)).
      replace ((_ <? 0) || _) with false by lia. repeat split; try lia.
      destruct (shift_spec (s_start s) (ord nb p - ord nb (s_start s)) nb Hs B) as (q & Sq & Eq & Bq & Oq).
      rewrite Sq. f_equal. apply (ord_inj (per (s_start s)) nb); auto; [|lia].
      apply (valid_inv2 p _ nb Vp Ep Hs).
    + intros Hn'. replace ((_ <? 0) || _) with true; auto.
      assert (~ (ord nb (s_start s) <= ord nb p <= ord nb (s_end s))) by (intros C; apply Hn'; auto). lia.
Qed.

Lemma list_periods_spec s : sample_ok s ->
  exists ps, list_periods s = Ok (map period_to_string ps) /\
    Z.of_nat (length ps) = s_nb s /\
    (forall i, (i < length ps)%nat -> shift (s_start s) (Z.of_nat i) = Ok (nth i ps period0)) /\
    (forall p, In p ps <-> between (s_start s) (s_end s) p).
Proof.
  intros Hok. pose proof Hok as (n & Hn & Va & Vb & St & Nb). pose proof Va as (nb & Hs & B).
  destruct (steps_ord _ _ _ St Va nb Hs) as (E & _ & O).
  assert (SH : forall t, shift (s_start s) t = Ok (shift_of (s_start s) t)).
  { intros t. unfold shift_of. destruct (shift_spec (s_start s) t nb Hs B) as (q & -> & _). reflexivity. }
  exists (map (shift_of (s_start s)) (seqZ 0 (Z.to_nat (s_nb s)))).
  split; [|split; [|split]].
  - unfold list_periods.
    rewrite (mapM_spec _ (fun t => period_to_string (shift_of (s_start s) t))).
    + rewrite map_map. reflexivity.
    + intros t _. rewrite SH. reflexivity.
  - rewrite map_length, seqZ_length. lia.
  - intros i Hi. rewrite map_length, seqZ_length in Hi.
    rewrite SH. f_equal.
    rewrite nth_indep with (d' := shift_of (s_start s) 0) by (rewrite map_length, seqZ_length; auto).
    rewrite map_nth, seqZ_nth by auto. f_equal; lia.
  - intros p. rewrite in_map_iff, (between_iff _ _ p nb) by auto. split.
    + intros (t & <- & Ht). rewrite seqZ_in in Ht.
      destruct (shift_spec (s_start s) t nb Hs B) as (q & Sq & Eq & Bq & Oq).
      unfold shift_of. rewrite Sq. repeat split; auto; try lia.
      exists nb. rewrite Eq. auto.
    + intros (Vp & Ep & Op). exists (ord nb p - ord nb (s_start s)). split; [|apply seqZ_in; lia].
      unfold shift_of.
      destruct (shift_spec (s_start s) (ord nb p - ord nb (s_start s)) nb Hs B) as (q & Sq & Eq & Bq & Oq).
      rewrite Sq. apply (ord_inj (per (s_start s)) nb); auto; [|lia].
      apply (valid_inv2 p _ nb Vp Ep Hs).
Qed.

Lemma make_sample_ok a b s : valid_period a -> valid_period b -> make_sample a b = Ok s ->
  s_start s = a /\ s_end s = b /\ per b = per a /\
  exists n, steps n a b /\ s_nb s = to_short (Z.of_nat n + 1).
Proof.
  intros Va Vb. destruct (Ascii.eqb_spec (per b) (per a)) as [E|N].
  - pose proof Va as (nb & Hs & B). rewrite (make_sample_spec a b nb) by auto.
    destruct (_ <? 0) eqn:L; [discriminate|]. intros H; injection H as <-. cbn. repeat split; auto.
    exists (Z.to_nat (ord nb b - ord nb a)). split; [|f_equal; lia].
    apply (steps_ex _ _ _ nb); auto. lia.
  - unfold make_sample. rewrite difference_throw by auto. discriminate.
Qed.

Lemma intersection_spec s o : sample_ok s -> sample_ok o -> per (s_start s) = per (s_start o) ->
  (forall r, intersection s o = Ok r ->
     sample_ok r /\
     forall p, between (s_start r) (s_end r) p <->
               between (s_start s) (s_end s) p /\ between (s_start o) (s_end o) p) /\
  (intersection s o = Throw <->
     forall p, ~ (between (s_start s) (s_end s) p /\ between (s_start o) (s_end o) p)).
Proof.
  intros (n & Hn & Va & Vb & St & Nb) (n' & Hn' & Va' & Vb' & St' & Nb') Eper.
  pose proof Va as (nb & Hs & B).
  destruct (steps_ord _ _ _ St Va nb Hs) as (E & _ & O).
  assert (Hs' : sub_periods (per (s_start o)) nb) by (rewrite <- Eper; auto).
  destruct (steps_ord _ _ _ St' Va' nb Hs') as (E' & _ & O').
  unfold intersection. rewrite Eper, Ascii.eqb_refl. cbn [negb].
  rewrite (difference_spec _ _ nb) by (rewrite ?Eper; auto). cbn [rbind].
  rewrite (difference_spec (s_end s) _ nb) by (rewrite ?E, ?E', ?Eper; auto). cbn [rbind].
  set (st := if _ <? 0 then _ else _). set (en := if 0 <? _ then _ else _).
  assert (Hst : valid_period st /\ per st = per (s_start o) /\ ord nb st = Z.max (ord nb (s_start s)) (ord nb (s_start o))).
  { unfold st. destruct (_ <? 0) eqn:?; repeat split; auto; lia. }
  assert (Hen : valid_period en /\ per en = per (s_start o) /\ ord nb en = Z.min (ord nb (s_end s)) (ord nb (s_end o))).
  { unfold en. destruct (0 <? _) eqn:?; repeat split; auto; try lia. congruence. }
  destruct Hst as (Vst & Est & Ost), Hen as (Ven & Een & Oen).
  assert (Hst' : sub_periods (per st) nb) by (rewrite Est; auto).
  rewrite (make_sample_spec st en nb) by (auto; congruence).
  destruct (ord nb en - ord nb st <? 0) eqn:L.
  - split; [intros r C; discriminate C|]. split; [|auto]. intros _ p [B1 B2].
    apply (between_iff _ _ p nb) in B1; auto. apply (between_iff _ _ p nb) in B2; auto. lia.
  - split.
    + intros r H; injection H as <-. cbn [s_start s_end s_nb]. split.
      * exists (Z.to_nat (ord nb en - ord nb st)). cbn. repeat split; auto; try lia.
        -- apply (steps_ex _ _ _ nb); auto; try congruence. lia.
        -- rewrite to_short_id by lia. lia.
      * intros p. rewrite !(between_iff _ _ p nb) by (auto; congruence). rewrite Est, Eper.
        split; [intros (? & ? & ?)|intros ((? & ? & ?) & ? & ? & ?)]; repeat split; auto; lia.
    + split; [intros C; discriminate C|]. intros H. exfalso. apply (H st).
      rewrite !(between_iff _ _ st nb) by (auto; congruence). rewrite Est, Eper. repeat split; auto; lia.
Qed.

Lemma read_digits_pos s : forall a c, 1 <= a -> 1 <= fst (read_digits s a c).
Proof.
  induction s as [|d s IH]; intros a c H; cbn; [auto|].
  destruct (isdigit d) eqn:D; [|auto]. apply IH. apply isdigit_range in D. lia.
Qed.

Lemma stoi_pos d s v : 49 <= code d <= 57 -> stoi (d :: s) = Ok v -> 1 <= v.
Proof.
  intros H. assert (D : isdigit d = true) by (unfold isdigit; lia).
  destruct (digit_not_space d D) as (S1 & S2 & S3).
  unfold stoi. cbn [skip_spaces]. rewrite S1, S2, S3. cbn [read_digits]. rewrite D.
  pose proof (read_digits_pos s (0 * 10 + (code d - 48)) 1 ltac:(lia)) as P.
  destruct (read_digits s (0 * 10 + (code d - 48)) 1) as [w k]. cbn in P.
  destruct k; [discriminate|]. destruct (_ && _); [|discriminate]. intros E; injection E as <-. auto.
Qed.

Lemma parse_valid s p : parse_period s = Ok p -> 49 <= code (char_at s 5) <= 57 -> valid_period p.
Proof.
  intros H B. destruct (parse_accepts s p H) as (nb & Hs & U & _). exists nb. split; auto. split; auto.
  revert H. unfold parse_period. destruct s as [|a s]; [discriminate|].
  destruct (negb _); [discriminate|].
  destruct (nb_per_year _) as [m| |]; cbn [rbind]; [|discriminate..].
  destruct (stoi (firstn 4 _)) as [y0| |]; cbn [rbind]; [|discriminate..].
  destruct (if _ : bool then _ else _) as [st| |] eqn:E; cbn [rbind]; [|discriminate..].
  destruct (m <? st); [discriminate|]. intros H; injection H as <-. cbn.
  destruct s as [|b [|c [|d [|e s]]]]; try (exfalso; revert B; vm_compute; intros [B _]; apply B; reflexivity).
  cbn [length Nat.eqb] in E.
  destruct s as [|f s]; [exfalso; revert B; vm_compute; intros [B _]; apply B; reflexivity|].
  cbn [skipn] in E. eapply stoi_pos; [|exact E]. exact B.
Qed.

Lemma parse_valid_iff s p : parse_period s = Ok p -> (valid_period p <-> 1 <= step p).
Proof.
  intros H. destruct (parse_accepts s p H) as (nb & Hs & U & _). split.
  - intros V. apply (valid_inv p nb V Hs).
  - intros L. exists nb; auto.
Qed.

Lemma make_sample_count a b n : valid_period a -> steps n a b -> Z.of_nat n < 32767 ->
  exists s, make_sample a b = Ok s /\ s_start s = a /\ s_end s = b /\ s_nb s = Z.of_nat n + 1 /\ sample_ok s.
Proof.
  intros Va St Hn. pose proof Va as (nb & Hs & B).
  destruct (steps_ord _ _ _ St Va nb Hs) as (E & Vb & O).
  rewrite (make_sample_spec a b nb) by auto. replace (ord nb b - ord nb a) with (Z.of_nat n) by lia.
  replace (Z.of_nat n <? 0) with false by lia. rewrite to_short_id by lia.
  eexists. split; [reflexivity|]. cbn. repeat split; auto. exists n. cbn. auto.
Qed.

Lemma make_sample_throw a b : valid_period a -> valid_period b ->
  (make_sample a b = Throw <-> ~ exists n, steps n a b).
Proof.
  intros Va Vb. destruct (Ascii.eqb_spec (per b) (per a)) as [E|N].
  - pose proof Va as (nb & Hs & B). rewrite (make_sample_spec a b nb) by auto.
    destruct (ord nb b - ord nb a <? 0) eqn:L.
    + split; [|auto]. intros _ [n St]. destruct (steps_ord _ _ _ St Va nb Hs) as (_ & _ & O). lia.
    + split; [intros C; discriminate C|]. intros C. exfalso. apply C.
      exists (Z.to_nat (ord nb b - ord nb a)). apply (steps_ex _ _ _ nb); auto. lia.
  - split.
    + intros _ [n St]. pose proof Va as (nb & Hs & B).
      destruct (steps_ord _ _ _ St Va nb Hs) as (E & _). congruence.
    + intros _. unfold make_sample. rewrite difference_throw by auto. reflexivity.
Qed.

Lemma position_other s p : per p <> per (s_start s) -> position s p = Throw.
Proof. intros H. unfold position. rewrite difference_throw by auto. reflexivity. Qed.
