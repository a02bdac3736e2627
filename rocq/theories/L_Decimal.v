(** Lemmas on the decimal texts: rounding, exponent, shape of the text, reading. *)
From Coq Require Import ZArith Ascii String List Bool Lia Floats.SpecFloat.
From Verif Require Import M_Base M_Time M_Names M_Lex M_Compile M_Bytes M_Exec M_Double M_Decimal L_Time L_Names.
Import ListNotations.
Open Scope Z_scope.

(** * Rounding *)
Lemma round_div_bound n d : 0 < d -> 0 <= n -> 2 * n - d <= 2 * (round_div n d * d) <= 2 * n + d /\ 0 <= round_div n d.
Proof.
  intros D N. unfold round_div. pose proof (Z.div_mod n d ltac:(lia)) as E. pose proof (Z.mod_pos_bound n d D) as M.
  assert (Q : 0 <= n / d) by (apply Z.div_pos; lia). set (q := n / d) in *. set (r := n mod d) in *.
  destruct (Z.compare_spec (2 * r) d) as [C|C|C].
  - destruct (Z.even q); nia.
  - nia.
  - nia.
Qed.
Lemma round_div_exact q d : 0 < d -> round_div (q * d) d = q.
Proof.
  intros D. unfold round_div. rewrite Z.mod_mul, Z.div_mul by lia. destruct (Z.compare_spec (2 * 0) d); lia.
Qed.
Lemma round_div_scale n d c : 0 < d -> 0 < c -> round_div (n * c) (d * c) = round_div n d.
Proof.
  intros D C. unfold round_div. rewrite Z.div_mul_cancel_r by lia. rewrite Z.mul_mod_distr_r by lia.
  replace (2 * (n mod d * c)) with ((2 * (n mod d)) * c) by ring.
  rewrite <- Zmult_compare_compat_r by lia. reflexivity.
Qed.
Lemma round_div_ratio a b a' b' : 0 < b -> 0 < b' -> a * b' = a' * b -> round_div a b = round_div a' b'.
Proof.
  intros B B' E. rewrite <- (round_div_scale a b b') by lia. rewrite <- (round_div_scale a' b' b) by lia.
  rewrite E. f_equal. lia.
Qed.
(** A number closer to the integer [q] than to its neighbours. *)
Lemma round_div_near n d q : 0 < d -> - d < 2 * (n - q * d) < d -> round_div n d = q.
Proof.
  intros D H. unfold round_div. pose proof (Z.div_mod n d ltac:(lia)) as E. pose proof (Z.mod_pos_bound n d D) as M.
  set (k := n / d) in *. set (r := n mod d) in *.
  assert (C : k = q \/ k = q - 1) by nia. destruct C as [-> | C].
  - destruct (Z.compare_spec (2 * r) d); nia.
  - rewrite C in *. destruct (Z.compare_spec (2 * r) d); nia.
Qed.

(** * The decimal exponent *)
Lemma p10 k : 0 <= k -> 0 < 10 ^ k.
Proof. intros. apply Z.pow_pos_nonneg; lia. Qed.
Lemma p10S k : 0 <= k -> 10 ^ (k + 1) = 10 * 10 ^ k.
Proof. intros. rewrite Z.pow_add_r by lia. lia. Qed.
(** [x] is the exponent of n / d. *)
Definition has_exp (n d x : Z) : Prop :=
  let '(a, b) := scale n d (- x) in b <= a < 10 * b.
Lemma exp_up_spec fuel : forall n d x, 0 < d -> 0 <= x -> d * 10 ^ x <= 10 * n -> (1 <= fuel)%nat ->
  n < d * 10 ^ (x + Z.of_nat fuel - 1) ->
  let y := exp_up fuel n (d * 10 ^ x) x in x - 1 <= y < x + Z.of_nat fuel /\ d * 10 ^ (y + 1) <= 10 * n /\ n < d * 10 ^ (y + 1).
Proof.
  induction fuel as [|f IH]; intros n d x D X L F U; [lia|]. cbn [exp_up].
  destruct (n <? d * 10 ^ x) eqn:E.
  - replace (x - 1 + 1) with x by lia. repeat split; lia.
  - replace (10 * (d * 10 ^ x)) with (d * 10 ^ (x + 1)) by (rewrite p10S by lia; ring).
    destruct f as [|f].
    + exfalso. replace (x + Z.of_nat 1 - 1) with x in U by lia. lia.
    + replace (x + Z.of_nat (S (S f)) - 1) with (x + 1 + Z.of_nat (S f) - 1) in U by lia.
      assert (A : d * 10 ^ (x + 1) <= 10 * n) by (rewrite p10S by lia; lia).
      specialize (IH n d (x + 1) D ltac:(lia) A ltac:(lia) U). cbn zeta in IH. cbn zeta. lia.
Qed.
Lemma exp_down_spec fuel : forall n d x, 0 < d -> 0 < n -> x <= 0 -> n * 10 ^ (- x) < 10 * d -> (1 <= fuel)%nat ->
  d <= n * 10 ^ (- x + Z.of_nat fuel - 1) ->
  let y := exp_down fuel (n * 10 ^ (- x)) d x in x - Z.of_nat fuel < y <= x /\ d <= n * 10 ^ (- y) < 10 * d.
Proof.
  induction fuel as [|f IH]; intros n d x D N X L F U; [lia|]. cbn [exp_down].
  destruct (d <=? n * 10 ^ (- x)) eqn:E.
  - repeat split; lia.
  - replace (10 * (n * 10 ^ (- x))) with (n * 10 ^ (- (x - 1))) by (replace (- (x - 1)) with (- x + 1) by lia; rewrite p10S by lia; ring).
    destruct f as [|f].
    + exfalso. replace (- x + Z.of_nat 1 - 1) with (- x) in U by lia. lia.
    + replace (- x + Z.of_nat (S (S f)) - 1) with (- (x - 1) + Z.of_nat (S f) - 1) in U by lia.
      assert (A : n * 10 ^ (- (x - 1)) < 10 * d) by (replace (- (x - 1)) with (- x + 1) by lia; rewrite p10S by lia; lia).
      specialize (IH n d (x - 1) D N ltac:(lia) A ltac:(lia) U). cbn zeta in IH. cbn zeta. lia.
Qed.
Lemma exp10_spec n d : 0 < n -> 0 < d -> n < d * 10 ^ 399 -> d <= n * 10 ^ 399 -> has_exp n d (exp10 n d) /\ -400 < exp10 n d < 400.
Proof.
  intros N D U L. unfold exp10, has_exp. destruct (d <=? n) eqn:E.
  - pose proof (exp_up_spec 400 n d 0 D ltac:(lia) ltac:(change (10 ^ 0) with 1; lia) ltac:(lia)) as H. cbn zeta in H.
    change (10 ^ 0) with 1 in H. rewrite Z.mul_1_r in H. specialize (H U). clear U L.
    remember (exp_up 400 n d 0) as y eqn:Ey. destruct H as (H1 & H2 & H3).
    assert (Y : 0 <= y).
    { destruct (Z.eq_dec y (-1)) as [->|NE]; [|lia]. replace (-1 + 1) with 0 in H3 by lia. change (10 ^ 0) with 1 in H3. lia. }
    split; [|cbn in H1; lia]. unfold scale. destruct (0 <=? - y) eqn:Z0.
    + assert (y = 0) as -> by lia. change (10 ^ (0 + 1)) with 10 in *. change (10 ^ (- 0)) with 1. lia.
    + replace (- - y) with y by lia. rewrite p10S in H2, H3 by lia. lia.
  - pose proof (exp_down_spec 400 n d 0 D N ltac:(lia)) as H. cbn zeta in H. change (10 ^ (- 0)) with 1 in H. rewrite Z.mul_1_r in H.
    specialize (H ltac:(lia) ltac:(lia)). replace (- 0 + Z.of_nat 400 - 1) with 399 in H by reflexivity. specialize (H L). clear U L.
    remember (exp_down 400 n d 0) as y eqn:Ey. destruct H as (H1 & H2). split; [|cbn in H1; lia].
    unfold scale. replace (0 <=? - y) with true by lia. lia.
Qed.
Lemma exp_unique n d x y : 0 < n -> 0 < d -> has_exp n d x -> has_exp n d y -> x = y.
Proof.
  assert (G : forall x y, 0 < n -> 0 < d -> has_exp n d x -> has_exp n d y -> x <= y).
  { clear. intros x y N D. unfold has_exp, scale. intros Hx Hy. destruct (Z.le_gt_cases x y) as [C|C]; [exact C|exfalso].
    destruct (0 <=? - x) eqn:Ex, (0 <=? - y) eqn:Ey; try lia.
    - assert (10 ^ (- y) = 10 ^ (- x) * 10 ^ (x - y)) by (rewrite <- Z.pow_add_r by lia; f_equal; lia).
      assert (10 <= 10 ^ (x - y)) by (replace (x - y) with (x - y - 1 + 1) by lia; rewrite p10S by lia; pose proof (p10 (x - y - 1)); lia).
      pose proof (p10 (- x)). nia.
    - replace (- - x) with x in Hx by lia.
      assert (10 <= 10 ^ x) by (replace x with (x - 1 + 1) by lia; rewrite p10S by lia; pose proof (p10 (x - 1)); lia).
      pose proof (p10 (- y)). nia.
    - replace (- - x) with x in Hx by lia. replace (- - y) with y in Hy by lia.
      assert (10 ^ x = 10 ^ y * 10 ^ (x - y)) by (rewrite <- Z.pow_add_r by lia; f_equal; lia).
      assert (10 <= 10 ^ (x - y)) by (replace (x - y) with (x - y - 1 + 1) by lia; rewrite p10S by lia; pose proof (p10 (x - y - 1)); lia).
      pose proof (p10 y). nia. }
  intros N D Hx Hy. pose proof (G x y N D Hx Hy). pose proof (G y x N D Hy Hx). lia.
Qed.

(** Ratios: (a, b) and (c, d) are the same number. *)
Lemma scale_pos n d k : 0 < n -> 0 < d -> 0 < fst (scale n d k) /\ 0 < snd (scale n d k).
Proof. intros N D. unfold scale. destruct (0 <=? k) eqn:E; cbn [fst snd]; split; try lia; pose proof (p10 (- k)); pose proof (p10 k); nia. Qed.
(** The digits: [p] of them, the value is within half a unit of the last one. *)
Lemma digits_of_spec p n d x : 0 < p -> 0 < n -> 0 < d -> has_exp n d x -> exp10 n d = x ->
  let '(r, y) := digits_of p n d in
  10 ^ (p - 1) <= r < 10 ^ p /\ (y = x \/ y = x + 1) /\
  (let '(a, b) := scale n d (p - 1 - y) in 2 * a - b <= 2 * (r * b) <= 2 * a + b).
Proof.
  intros P N D H E. unfold digits_of. rewrite E.
  assert (G : 10 ^ (p - 1) * snd (scale n d (p - 1 - x)) <= fst (scale n d (p - 1 - x)) < 10 ^ p * snd (scale n d (p - 1 - x))).
  { assert (P10 : 10 ^ p = 10 * 10 ^ (p - 1)) by (rewrite <- p10S by lia; f_equal; lia). rewrite P10. clear P10. unfold has_exp, scale in *.
    pose proof (p10 (p - 1) ltac:(lia)) as Q.
    destruct (0 <=? - x) eqn:A, (0 <=? p - 1 - x) eqn:B; cbn [fst snd]; try lia.
    - replace (10 ^ (p - 1 - x)) with (10 ^ (p - 1) * 10 ^ (- x)) by (rewrite <- Z.pow_add_r by lia; f_equal; lia). nia.
    - replace (- - x) with x in H by lia.
      assert (10 ^ (p - 1) = 10 ^ (p - 1 - x) * 10 ^ x) by (rewrite <- Z.pow_add_r by lia; f_equal; lia).
      pose proof (p10 (p - 1 - x)). nia.
    - replace (- - x) with x in H by lia. replace (- (p - 1 - x)) with (x - (p - 1)) by lia.
      assert (10 ^ x = 10 ^ (x - (p - 1)) * 10 ^ (p - 1)) by (rewrite <- Z.pow_add_r by lia; f_equal; lia).
      nia. }
  pose proof (scale_pos n d (p - 1 - x) N D) as [SA SB].
  destruct (scale n d (p - 1 - x)) as [a b] eqn:Sc. cbn [fst snd] in *.
  pose proof (round_div_bound a b SB ltac:(lia)) as [Rb R0]. set (r := round_div a b) in *.
  assert (R1 : 10 ^ (p - 1) <= r) by (pose proof (p10 (p - 1)); nia).
  assert (R2 : r <= 10 ^ p) by nia.
  destruct (r =? 10 ^ p) eqn:C.
  - apply Z.eqb_eq in C. assert (T : 10 ^ p = 10 * 10 ^ (p - 1)) by (rewrite <- p10S by lia; f_equal; lia).
    split; [pose proof (p10 (p - 1)); lia|]. split; [right; reflexivity|].
    assert (S10 : fst (scale n d (p - 1 - (x + 1))) * (10 * b) = a * snd (scale n d (p - 1 - (x + 1))) /\
                  (snd (scale n d (p - 1 - (x + 1))) = 10 * b /\ fst (scale n d (p - 1 - (x + 1))) = a \/
                   10 * fst (scale n d (p - 1 - (x + 1))) = a /\ snd (scale n d (p - 1 - (x + 1))) = b)).
    { unfold scale in *. destruct (0 <=? p - 1 - x) eqn:A, (0 <=? p - 1 - (x + 1)) eqn:B; try lia; injection Sc as <- <-; cbn [fst snd].
      - replace (p - 1 - x) with (p - 1 - (x + 1) + 1) by lia. rewrite p10S by lia. split; [ring|right; split; ring].
      - assert (p - 1 - x = 0) as -> by lia. assert (- (p - 1 - (x + 1)) = 1) as -> by lia. change (10 ^ 0) with 1. change (10 ^ 1) with 10.
        split; [ring|left; split; ring].
      - replace (- (p - 1 - (x + 1))) with (- (p - 1 - x) + 1) by lia. rewrite p10S by lia. split; [ring|left; split; ring]. }
    destruct (scale n d (p - 1 - (x + 1))) as [a2 b2]. cbn [fst snd] in S10.
    destruct S10 as (_ & [[-> ->]|[F ->]]); nia.
  - apply Z.eqb_neq in C. split; [lia|]. split; [left; reflexivity|]. rewrite Sc. lia.
Qed.

(** * The text *)
Definition digits (s : str) : Prop := Forall (fun c => isdigit c = true) s.
Definition value_of (s : str) : Z := fst (read_digits s 0 O).
Lemma read_digits_fst s : forall a c, digits s -> fst (read_digits s a c) = a * 10 ^ Z.of_nat (length s) + value_of s.
Proof.
  assert (G : forall s a c, digits s -> fst (read_digits s a c) = a * 10 ^ Z.of_nat (length s) + fst (read_digits s 0 c) /\
     forall c', fst (read_digits s 0 c) = fst (read_digits s 0 c')).
  { clear. induction s as [|d s IH]; intros a c H; [cbn; split; [lia|reflexivity]|]. inversion H as [|x l Hd Hs]; subst.
    cbn [read_digits length]. rewrite Hd.
    assert (P : 10 ^ Z.of_nat (S (length s)) = 10 * 10 ^ Z.of_nat (length s)) by (rewrite Nat2Z.inj_succ, <- Z.add_1_r; apply p10S; lia).
    split.
    - destruct (IH (a * 10 + (code d - 48)) (S c) Hs) as [-> _]. destruct (IH (0 * 10 + (code d - 48)) (S c) Hs) as [-> _]. rewrite P. ring.
    - intros c'. destruct (IH (0 * 10 + (code d - 48)) (S c) Hs) as [-> Q]. destruct (IH (0 * 10 + (code d - 48)) (S c') Hs) as [-> _].
      rewrite (Q (S c')). reflexivity. }
  intros a c H. destruct (G s a c H) as [-> Q]. unfold value_of. rewrite (Q O). reflexivity.
Qed.
Lemma value_app a b : digits a -> digits b -> value_of (a ++ b) = value_of a * 10 ^ Z.of_nat (length b) + value_of b.
Proof.
  intros A B. unfold value_of at 1.
  assert (G : forall a x c, digits a -> exists c', read_digits (a ++ b) x c = read_digits b (fst (read_digits a x c)) c').
  { clear -B. induction a as [|d a IH]; intros x c A; [exists c; reflexivity|]. inversion A as [|y l Hd Ha]; subst.
    cbn [app read_digits]. rewrite Hd. apply IH. exact Ha. }
  destruct (G a 0 O A) as (c' & ->). rewrite (read_digits_fst b) by exact B. reflexivity.
Qed.
Lemma value_zeros k : value_of (repeat (chr 48) k) = 0.
Proof. unfold value_of. generalize O. induction k as [|k IH]; intros c; [reflexivity|]. cbn. apply IH. Qed.
Lemma digits_zeros k : digits (repeat (chr 48) k).
Proof. induction k; constructor; [reflexivity|assumption]. Qed.
Lemma to_string_spec n : 0 <= n -> digits (to_string n) /\ value_of (to_string n) = n /\ to_string n <> [] /\
  (n < 10 ^ Z.of_nat (length (to_string n))) /\ (10 ^ (Z.of_nat (length (to_string n)) - 1) <= n \/ length (to_string n) = 1%nat).
Proof.
  intros N. unfold to_string. replace (n <? 0) with false by lia.
  split; [apply dec_nonneg_digits; exact N|].
  destruct (dec_nonneg_read n 0 O [] N) as (k & K1 & R & L & B1 & B2). rewrite app_nil_r in R.
  split; [unfold value_of; rewrite R; cbn; reflexivity|]. split; [intros E; rewrite E in L; cbn in L; lia|]. rewrite L. split; assumption.
Qed.
Lemma to_string_length n p : 0 < p -> 10 ^ (p - 1) <= n < 10 ^ p -> Z.of_nat (length (to_string n)) = p.
Proof.
  intros P H. pose proof (p10 (p - 1) ltac:(lia)). destruct (to_string_spec n ltac:(lia)) as (_ & _ & _ & A & B).
  set (k := Z.of_nat (length (to_string n))) in *.
  destruct (Z.lt_trichotomy k p) as [C|[C|C]]; [|exact C|].
  - exfalso. assert (10 ^ k <= 10 ^ (p - 1)) by (apply Z.pow_le_mono_r; lia). lia.
  - exfalso. destruct B as [B|B]; [|lia]. assert (10 ^ p <= 10 ^ (k - 1)) by (apply Z.pow_le_mono_r; lia). lia.
Qed.

(** Digits, and a fraction, and an exponent. *)
Record number_text := mkNT { ip : str; fp : str; ep : option (bool * str) }.
Definition nt_ok (t : number_text) : Prop :=
  digits (ip t) /\ ip t <> [] /\ digits (fp t) /\ match ep t with Some (_, e) => digits e /\ e <> [] | None => True end.
Definition frac_text (f : str) : str := match f with [] => [] | _ => chr 46 :: f end.
Definition exp_part (e : ascii) (x : option (bool * str)) : str :=
  match x with Some (s, t) => e :: (if s : bool then chr 45 else chr 43) :: t | None => [] end.
Definition text_of (e : ascii) (t : number_text) : str := ip t ++ frac_text (fp t) ++ exp_part e (ep t).
Definition exp_value (x : option (bool * str)) : Z :=
  match x with Some (s, t) => if s : bool then - value_of t else value_of t | None => 0 end.

Lemma span_digits a s : digits a -> (forall c u, s = c :: u -> isdigit c = false) -> span isdigit (a ++ s) = (a, s).
Proof. intros A B. apply span_app; [|exact B]. apply forallb_forall. unfold digits in A. rewrite Forall_forall in A. exact A. Qed.
Lemma read_digits_stop_at a s : digits a -> (forall c u, s = c :: u -> isdigit c = false) -> fst (read_digits (a ++ s) 0 O) = value_of a.
Proof.
  intros A B. unfold value_of. generalize 0, O. induction a as [|d a IH]; intros x c.
  - cbn [app]. destruct s as [|e s]; [reflexivity|]. cbn. rewrite (B e s eq_refl). reflexivity.
  - inversion A as [|y l Hd Ha]; subst. cbn [app read_digits]. rewrite Hd. apply IH. exact Ha.
Qed.
Lemma scan_exp_spec e x s : (code e = 101 \/ code e = 69) -> match x with Some (_, t) => digits t | None => True end ->
  (forall c u, s = c :: u -> isdigit c = false /\ code c <> 101 /\ code c <> 69) -> scan_exp (exp_part e x ++ s) = exp_value x.
Proof.
  intros E X S. destruct x as [[g t]|]; cbn [exp_part exp_value app].
  - cbn [scan_exp]. replace ((code e =? 101) || (code e =? 69)) with true by lia.
    assert (B : forall c u, s = c :: u -> isdigit c = false) by (intros c u Q; apply (S c u Q)).
    destruct g; cbn; rewrite (read_digits_stop_at t s X B); reflexivity.
  - destruct s as [|c s]; [reflexivity|]. destruct (S c s eq_refl) as (_ & A1 & A2). cbn [scan_exp].
    replace ((code c =? 101) || (code c =? 69)) with false by lia. reflexivity.
Qed.
Lemma scan_spec e t : (code e = 101 \/ code e = 69) -> nt_ok t ->
  scan (text_of e t) = d_decimal (value_of (ip t ++ fp t)) (exp_value (ep t) - Z.of_nat (length (fp t))).
Proof.
  intros E (A & NE & F & X). unfold scan, text_of.
  assert (XX : match ep t with Some (_, u) => digits u | None => True end) by (destruct (ep t) as [[g u]|]; [apply X|exact I]).
  assert (SE : scan_exp (exp_part e (ep t)) = exp_value (ep t)).
  { rewrite <- (app_nil_r (exp_part e (ep t))). apply scan_exp_spec; [exact E|exact XX|discriminate]. }
  assert (ND : forall c u, exp_part e (ep t) = c :: u -> isdigit c = false).
  { intros c u Q. destruct (ep t) as [[g v]|]; [|discriminate Q]. injection Q as <- _. unfold isdigit. lia. }
  destruct (fp t) as [|f0 f] eqn:Ef; cbn [frac_text app].
  - rewrite (span_digits (ip t) _ A ND). rewrite app_nil_r. cbn [length]. change (Z.of_nat 0) with 0. rewrite Z.sub_0_r.
    destruct (exp_part e (ep t)) as [|c u] eqn:Ex.
    + cbn in SE. rewrite <- SE. reflexivity.
    + assert (C : (code c =? 46) = false).
      { destruct (ep t) as [[g v]|]; [|discriminate Ex]. injection Ex as <- _. lia. }
      rewrite C, SE. reflexivity.
  - rewrite (span_digits (ip t)); [|exact A|intros c u Q; injection Q as <- _; reflexivity].
    change (code (chr 46) =? 46) with true. cbv iota.
    change (f0 :: f ++ exp_part e (ep t)) with ((f0 :: f) ++ exp_part e (ep t)).
    rewrite (span_digits (f0 :: f) _ F ND). rewrite SE. reflexivity.
Qed.

Lemma read_num_digits a : forall s dbl ee, digits a -> read_num (a ++ s) dbl ee = let '(t, d, r) := read_num s dbl ee in (a ++ t, d, r).
Proof.
  induction a as [|c a IH]; intros s dbl ee A; [cbn [app]; destruct (read_num s dbl ee) as [[? ?] ?]; reflexivity|].
  inversion A as [|x l Hc Ha]; subst. cbn [app read_num]. rewrite Hc, (IH s dbl ee Ha). destruct (read_num s dbl ee) as [[? ?] ?]. reflexivity.
Qed.
Definition number_end (s : str) : Prop := forall c u, s = c :: u -> isdigit c = false /\ code c <> 101 /\ code c <> 69 /\ code c <> 46.
Lemma read_num_end s dbl ee : number_end s -> read_num s dbl ee = ([], dbl, s).
Proof.
  intros N. destruct s as [|c s]; [reflexivity|]. destruct (N c s eq_refl) as (A & B & C & D). cbn [read_num]. rewrite A.
  replace ((code c =? 101) || (code c =? 69)) with false by lia. replace (code c =? 46) with false by lia. reflexivity.
Qed.
Lemma read_num_exp e x s dbl : (code e = 101 \/ code e = 69) -> match x with Some (_, t) => digits t | None => True end -> number_end s ->
  read_num (exp_part e x ++ s) dbl false = (exp_part (chr 69) x, match x with Some _ => true | None => dbl end, s).
Proof.
  intros E X N. destruct x as [[g t]|]; cbn [exp_part app]; [|apply read_num_end; exact N].
  cbn [read_num]. replace (isdigit e) with false by (unfold isdigit; lia). replace ((code e =? 101) || (code e =? 69)) with true by lia.
  destruct g; cbn [Z.eqb code orb]; change (code (chr 45) =? 45) with true; change (code (chr 43) =? 43) with true;
    change ((code (chr 43) =? 45) || true) with true; rewrite ?orb_true_r, ?orb_true_l; cbv iota;
    rewrite (read_num_digits t s true true X), (read_num_end s true true N), app_nil_r; reflexivity.
Qed.
Lemma read_num_point s ee : read_num (chr 46 :: s) false ee = let '(t, d, r) := read_num s true ee in (chr 46 :: t, d, r).
Proof. reflexivity. Qed.
Lemma read_num_spec e t s : (code e = 101 \/ code e = 69) -> nt_ok t -> number_end s ->
  read_num (text_of e t ++ s) false false =
    (text_of (chr 69) t, match fp t, ep t with [], None => false | _, _ => true end, s).
Proof.
  intros E (A & NE & F & X) N. unfold text_of. rewrite <- app_assoc, (read_num_digits (ip t) _ _ _ A).
  assert (XX : match ep t with Some (_, u) => digits u | None => True end) by (destruct (ep t) as [[g u]|]; [apply X|exact I]).
  destruct (fp t) as [|f0 f] eqn:Ef; cbn [frac_text app].
  - rewrite (read_num_exp e (ep t) s false E XX N). destruct (ep t) as [[g u]|]; reflexivity.
  - change (chr 46 :: f0 :: (f ++ exp_part e (ep t)) ++ s) with (chr 46 :: ((f0 :: f) ++ exp_part e (ep t)) ++ s).
    rewrite read_num_point, <- app_assoc, (read_num_digits (f0 :: f) _ true false F), (read_num_exp e (ep t) s true E XX N).
    destruct (ep t) as [[g u]|]; reflexivity.
Qed.
