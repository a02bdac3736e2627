(** Lemmas on printf and atof: the text of a double, the double of its text. *)
From Coq Require Import ZArith Ascii String List Bool Lia Floats.SpecFloat.
From Verif Require Import M_Base M_Time M_Names M_Lex M_Double M_Decimal L_Time L_Decimal L_Round L_Round2.
From Coq Require Import Floats.FloatOps.
Import ListNotations.
Open Scope Z_scope.

(** * The text of the digits *)
Lemma drop_zeros_spec s : exists j, s = repeat (chr 48) j ++ drop_zeros s.
Proof.
  induction s as [|c s (j & IH)]; [exists O; reflexivity|]. cbn [drop_zeros]. destruct (code c =? 48) eqn:E; [|exists O; reflexivity].
  exists (S j). cbn [repeat app]. rewrite <- IH. f_equal. apply code_inj. rewrite code_chr by lia. lia.
Qed.
Lemma strip_spec f : exists j, f = strip f ++ repeat (chr 48) j.
Proof.
  destruct (drop_zeros_spec (rev f)) as (j & H). exists j. unfold strip. set (g := drop_zeros (rev f)) in *. clearbody g. rewrite <- (rev_involutive f), H, rev_app_distr. f_equal.
  clear. induction j as [|j IH]; [reflexivity|]. cbn [repeat rev]. rewrite IH. clear. induction j as [|j IH]; [reflexivity|]. cbn. f_equal. exact IH.
Qed.
Lemma point_spec i f : point i f = i ++ frac_text (strip f).
Proof. unfold point, frac_text. destruct (strip f); [symmetry; apply app_nil_r|reflexivity]. Qed.
Lemma digits_app a b : digits (a ++ b) <-> digits a /\ digits b.
Proof. apply Forall_app. Qed.
Definition nt_mant (t : number_text) : Z := value_of (ip t ++ fp t).
Definition nt_exp (t : number_text) : Z := exp_value (ep t) - Z.of_nat (length (fp t)).
(** i.f e x with the trailing zeros of f removed *)
Lemma point_nt i f x : digits i -> i <> [] -> digits f -> match x with Some (_, e) => digits e /\ e <> [] | None => True end ->
  0 < value_of (i ++ f) ->
  exists t, point i f ++ exp_part (chr 101) x = text_of (chr 101) t /\ nt_ok t /\ 0 < nt_mant t /\
    same10 (value_of (i ++ f)) (exp_value x - Z.of_nat (length f)) (nt_mant t) (nt_exp t) /\
    ip t = i /\ ep t = x /\ (length (fp t) <= length f)%nat.
Proof.
  intros I NE F X V. destruct (strip_spec f) as (j & E). set (g := strip f) in *.
  assert (G : digits g) by (rewrite E in F; apply digits_app in F; apply F).
  exists (mkNT i g x). unfold nt_mant, nt_exp, text_of. cbn [ip fp ep]. rewrite point_spec. fold g.
  assert (VE : value_of (i ++ f) = value_of (i ++ g) * 10 ^ Z.of_nat j).
  { rewrite E, app_assoc, value_app, value_zeros, repeat_length, Z.add_0_r; [reflexivity|apply digits_app; split; assumption|apply digits_zeros]. }
  assert (LE : length f = (length g + j)%nat) by (rewrite E at 1; rewrite app_length, repeat_length; reflexivity).
  split; [symmetry; apply app_assoc|]. split; [repeat split; assumption|]. pose proof (p10 (Z.of_nat j) ltac:(lia)).
  split; [rewrite VE in V; nia|]. split; [|repeat split; lia].
  rewrite VE. replace (exp_value x - Z.of_nat (length g)) with (exp_value x - Z.of_nat (length f) + Z.of_nat j) by lia. apply same10_shift. lia.
Qed.
Lemma exp_text_part x : exists e, exp_text x = exp_part (chr 101) (Some (x <? 0, e)) /\ digits e /\ e <> [] /\ exp_value (Some (x <? 0, e)) = x /\
  (Z.abs x < 1000 -> (length e <= 4)%nat).
Proof.
  unfold exp_text, exp_part, exp_value. destruct (to_string_spec (Z.abs x) ltac:(lia)) as (D & V & NE & U & L).
  destruct (Z.abs x <? 10) eqn:A.
  - exists (chr 48 :: to_string (Z.abs x)). split; [reflexivity|]. split; [constructor; [reflexivity|exact D]|]. split; [discriminate|].
    change (chr 48 :: to_string (Z.abs x)) with ([chr 48] ++ to_string (Z.abs x)). rewrite value_app by (assumption || (constructor; [reflexivity|constructor])).
    rewrite V. change (value_of [chr 48]) with 0. split; [destruct (x <? 0) eqn:B; lia|]. intros _. rewrite app_length. cbn [length].
    destruct L as [L|L]; [|rewrite L; lia].
    assert (Z.of_nat (length (to_string (Z.abs x))) - 1 < 1); [|lia].
    destruct (Z.lt_ge_cases (Z.of_nat (length (to_string (Z.abs x))) - 1) 1) as [C|C]; [exact C|exfalso].
    assert (10 ^ 1 <= 10 ^ (Z.of_nat (length (to_string (Z.abs x))) - 1)) by (apply Z.pow_le_mono_r; lia). change (10 ^ 1) with 10 in *. lia.
  - exists (to_string (Z.abs x)). split; [reflexivity|]. split; [exact D|]. split; [exact NE|]. rewrite V. split; [destruct (x <? 0) eqn:B; lia|]. intros B.
    destruct L as [L|L]; [|rewrite L; lia].
    assert (Z.of_nat (length (to_string (Z.abs x))) - 1 < 3); [|lia].
    destruct (Z.lt_ge_cases (Z.of_nat (length (to_string (Z.abs x))) - 1) 3) as [C|C]; [exact C|exfalso].
    assert (10 ^ 3 <= 10 ^ (Z.of_nat (length (to_string (Z.abs x))) - 1)) by (apply Z.pow_le_mono_r; lia). change (10 ^ 3) with 1000 in *. lia.
Qed.
Lemma firstn_ne {X} (l : list X) n : (0 < n)%nat -> l <> [] -> firstn n l <> [].
Proof. destruct n; [lia|]. destruct l; [congruence|discriminate]. Qed.
Lemma text_length e t : length (text_of e t) = (length (ip t) + length (frac_text (fp t)) + length (exp_part e (ep t)))%nat.
Proof. unfold text_of. rewrite !app_length. lia. Qed.
Lemma g_text_spec p n d r y : 1 <= p <= 15 -> digits_of p n d = (r, y) -> 10 ^ (p - 1) <= r < 10 ^ p -> -400 <= y <= 400 ->
  exists t, g_text p n d = text_of (chr 101) t /\ nt_ok t /\ 0 < nt_mant t /\ same10 r (y - (p - 1)) (nt_mant t) (nt_exp t) /\
    forall e, (length (text_of e t) <= 60)%nat.
Proof.
  intros P DG R Y. unfold g_text. rewrite DG. pose proof (p10 (p - 1) ltac:(lia)) as T.
  destruct (to_string_spec r ltac:(lia)) as (D & V & NE & _). pose proof (to_string_length r p ltac:(lia) R) as L. set (ds := to_string r) in *. clearbody ds.
  assert (FIN : forall i f x m, digits i -> i <> [] -> digits f -> match x with Some (_, e) => digits e /\ e <> [] | None => True end ->
    value_of (i ++ f) = r -> exp_value x - Z.of_nat (length f) = y - (p - 1) -> (length i <= 15)%nat -> (length f <= 20)%nat ->
    match x with Some (_, e) => (length e <= 4)%nat | None => True end -> m = point i f ++ exp_part (chr 101) x ->
    exists t, m = text_of (chr 101) t /\ nt_ok t /\ 0 < nt_mant t /\ same10 r (y - (p - 1)) (nt_mant t) (nt_exp t) /\
      forall e, (length (text_of e t) <= 60)%nat).
  { intros i f x m I I0 F X VV EE Li Lf Lx ->. destruct (point_nt i f x I I0 F X ltac:(lia)) as (t & A & B & C & SM & Hi & He & Hf).
    exists t. split; [exact A|]. split; [exact B|]. split; [exact C|]. rewrite VV, EE in SM. split; [exact SM|]. intros e. rewrite text_length, Hi, He.
    assert (length (frac_text (fp t)) <= S (length (fp t)))%nat by (unfold frac_text; destruct (fp t); cbn [length]; lia).
    destruct x as [[g u]|]; cbn [exp_part length]; lia. }
  destruct ((-4 <=? y) && (y <? p)) eqn:C1; [destruct (0 <=? y) eqn:C2|].
  - apply (FIN (firstn (Z.to_nat (y + 1)) ds) (skipn (Z.to_nat (y + 1)) ds) None).
    + apply Forall_forall. intros c Hc. unfold digits in D. rewrite Forall_forall in D. apply D. rewrite <- (firstn_skipn (Z.to_nat (y + 1)) ds). apply in_or_app. auto.
    + apply firstn_ne; [lia|exact NE].
    + apply Forall_forall. intros c Hc. unfold digits in D. rewrite Forall_forall in D. apply D. rewrite <- (firstn_skipn (Z.to_nat (y + 1)) ds). apply in_or_app. auto.
    + exact I.
    + rewrite firstn_skipn. exact V.
    + cbn [exp_value]. rewrite skipn_length. lia.
    + rewrite firstn_length. lia.
    + rewrite skipn_length. lia.
    + exact I.
    + symmetry. apply app_nil_r.
  - apply (FIN [chr 48] (zeros (- y - 1) ++ ds) None).
    + constructor; [reflexivity|constructor].
    + discriminate.
    + apply digits_app. split; [apply digits_zeros|exact D].
    + exact I.
    + unfold zeros. rewrite app_assoc, value_app, V; [|apply digits_app; split; [constructor; [reflexivity|constructor]|apply digits_zeros]|exact D].
      change (value_of ([chr 48] ++ repeat (chr 48) (Z.to_nat (- y - 1)))) with (value_of (repeat (chr 48) (S (Z.to_nat (- y - 1))))).
      rewrite value_zeros. lia.
    + cbn [exp_value]. unfold zeros. rewrite app_length, repeat_length. lia.
    + cbn. lia.
    + unfold zeros. rewrite app_length, repeat_length. lia.
    + exact I.
    + symmetry. apply app_nil_r.
  - destruct (exp_text_part y) as (e & -> & De & Ne & Ve & Le).
    apply (FIN (firstn 1 ds) (skipn 1 ds) (Some (y <? 0, e))).
    + apply Forall_forall. intros c Hc. unfold digits in D. rewrite Forall_forall in D. apply D. rewrite <- (firstn_skipn 1 ds). apply in_or_app. auto.
    + apply firstn_ne; [lia|exact NE].
    + apply Forall_forall. intros c Hc. unfold digits in D. rewrite Forall_forall in D. apply D. rewrite <- (firstn_skipn 1 ds). apply in_or_app. auto.
    + split; assumption.
    + rewrite firstn_skipn. exact V.
    + rewrite Ve, skipn_length. lia.
    + rewrite firstn_length. lia.
    + rewrite skipn_length. lia.
    + apply Le. lia.
    + reflexivity.
Qed.

(** * The fraction of a double *)
Definition frac_n (m : positive) (e : Z) : Z := if 0 <=? e then Z.pos m * 2 ^ e else Z.pos m.
Definition frac_d (e : Z) : Z := if 0 <=? e then 1 else 2 ^ (- e).
Lemma print_finite p s m e : print_g p (S754_finite s m e) = M_Decimal.sign s (g_text p (frac_n m e) (frac_d e)).
Proof. cbn [print_g]. unfold frac_n, frac_d. destruct (0 <=? e); reflexivity. Qed.
Lemma frac_spec m e : Z.pos m < 2 ^ 53 -> -1074 <= e <= 971 ->
  0 < frac_n m e /\ 0 < frac_d e /\ frac_n m e * q2 0 = Z.pos m * q2 e * frac_d e /\
  frac_n m e < frac_d e * 10 ^ 399 /\ frac_d e <= frac_n m e * 10 ^ 399.
Proof.
  intros M E. assert (A : 0 < frac_n m e) by (unfold frac_n; destruct (0 <=? e) eqn:C; [pose proof (p2 e ltac:(lia)); nia|lia]).
  assert (B : 0 < frac_d e) by (unfold frac_d; destruct (0 <=? e) eqn:C; [lia|apply p2; lia]).
  assert (EQ : frac_n m e * q2 0 = Z.pos m * q2 e * frac_d e).
  { unfold frac_n, frac_d. destruct (0 <=? e) eqn:C.
    - replace e with (0 + e) at 2 by lia. rewrite q2_add by (unfold K0; lia). ring.
    - replace (q2 0) with (q2 (e + - e)) by (f_equal; lia). rewrite q2_add by (unfold K0; lia). ring. }
  split; [exact A|]. split; [exact B|]. split; [exact EQ|].
  set (n := frac_n m e) in *. set (d := frac_d e) in *. clearbody n d. pose proof (q2_pos e ltac:(unfold K0; lia)) as QE.
  pose proof (q2_pos 0 ltac:(unfold K0; lia)) as Q0. split.
  - assert (U : q2 e <= q2 971) by (unfold q2; apply Z.pow_le_mono_r; unfold K0; lia).
    assert (W : 2 ^ 53 * q2 971 < 10 ^ 399 * q2 0) by (vm_compute; reflexivity).
    set (c := 10 ^ 399) in *. set (u := q2 971) in *. set (w := q2 0) in *. set (v := q2 e) in *. set (b := 2 ^ 53) in *. set (z := Z.pos m) in *.
    assert (0 < z) by (unfold z; lia). clearbody c u w v b z. assert (z * v <= b * u) by nia. assert (n * w < d * c * w) by nia. nia.
  - assert (U : q2 (-1074) <= q2 e) by (unfold q2; apply Z.pow_le_mono_r; unfold K0; lia).
    assert (W : q2 0 <= 10 ^ 399 * q2 (-1074)) by (vm_compute; discriminate).
    pose proof (q2_pos (-1074) ltac:(unfold K0; lia)) as Q1. assert (C0 : 0 < 10 ^ 399) by (vm_compute; reflexivity).
    set (c := 10 ^ 399) in *. set (u := q2 (-1074)) in *. set (w := q2 0) in *. set (v := q2 e) in *. set (z := Z.pos m) in *.
    assert (0 < z) by (unfold z; lia). clearbody c u w v z. assert (w <= c * v) by nia. assert (v <= z * v) by nia. assert (w <= z * v * c) by nia. assert (d * w <= d * (z * v * c)) by (apply Z.mul_le_mono_nonneg_l; lia).
    assert (d * w <= n * c * w) by (replace (n * c * w) with (n * w * c) by ring; rewrite EQ; replace (z * v * d * c) with (d * (z * v * c)) by ring; assumption).
    apply (Z.mul_le_mono_pos_r _ _ w Q0). assumption.
Qed.

(** * The number read is the number of the text *)
Lemma scan_nt e t : (code e = 101 \/ code e = 69) -> nt_ok t -> scan (text_of e t) = d_decimal (nt_mant t) (nt_exp t).
Proof. apply scan_spec. Qed.
(** r * 10^(y-p+1) is in the range when r has p digits. *)
Lemma digits_ranged p r y : 1 <= p <= 15 -> 10 ^ (p - 1) <= r < 10 ^ p -> -307 <= y <= 307 ->
  ranged (num10 r (y - (p - 1))) (den10 r (y - (p - 1))).
Proof.
  intros P R Y. pose proof (p10 (p - 1) ltac:(lia)) as T. unfold num10, den10, scale. destruct (0 <=? y - (p - 1)) eqn:E; cbn [fst snd]; split.
  - pose proof (p10 (y - (p - 1)) ltac:(lia)). assert (0 < 10 ^ 307) by (vm_compute; reflexivity). nia.
  - replace 308 with (p + (y - (p - 1)) + (307 - y)) by lia. rewrite !Z.pow_add_r by lia. pose proof (p10 (y - (p - 1)) ltac:(lia)). pose proof (p10 (307 - y) ltac:(lia)).
    rewrite Z.mul_1_l. assert (r * 10 ^ (y - (p - 1)) <= 10 ^ p * 10 ^ (y - (p - 1))) by nia. nia.
  - replace (- (y - (p - 1))) with (p - 1 - y) by lia. rewrite Z.mul_1_l.
    destruct (Z.le_gt_cases 0 (- y)) as [C|C].
    + replace (10 ^ (p - 1 - y)) with (10 ^ (p - 1) * 10 ^ (- y)) by (rewrite <- Z.pow_add_r by lia; f_equal; lia).
      assert (10 ^ (- y) <= 10 ^ 307) by (apply Z.pow_le_mono_r; lia). pose proof (p10 (- y) ltac:(lia)). set (u := 10 ^ 307) in *. clearbody u. nia.
    + assert (10 ^ (p - 1 - y) <= 10 ^ (p - 1)) by (apply Z.pow_le_mono_r; lia). assert (1 <= 10 ^ 307) by (vm_compute; discriminate).
      set (u := 10 ^ 307) in *. clearbody u. nia.
  - rewrite Z.mul_1_l. assert (10 ^ p <= 10 ^ 308) by (apply Z.pow_le_mono_r; lia). pose proof (p10 (- (y - (p - 1))) ltac:(lia)).
    set (u := 10 ^ 308) in *. clearbody u. nia.
Qed.
(** The text of a positive double. *)
Lemma print_scan p m e : 1 <= p <= 15 -> Z.pos m < 2 ^ 53 -> -1074 <= e <= 971 ->
  frac_d e <= frac_n m e * 10 ^ 307 -> frac_n m e < frac_d e * 10 ^ 307 ->
  exists r y t, digits_of p (frac_n m e) (frac_d e) = (r, y) /\ 10 ^ (p - 1) <= r < 10 ^ p /\ -307 <= y <= 307 /\
    print_g p (S754_finite false m e) = text_of (chr 101) t /\ nt_ok t /\ 0 < nt_mant t /\
    same10 r (y - (p - 1)) (nt_mant t) (nt_exp t) /\
    (forall c, (length (text_of c t) <= 60)%nat) /\
    (forall c, code c = 101 \/ code c = 69 -> scan (text_of c t) = d_decimal r (y - (p - 1))).
Proof.
  intros P M E LO UP. destruct (frac_spec m e M E) as (A & B & _ & U & L). set (n := frac_n m e) in *. set (d := frac_d e) in *.
  destruct (exp10_spec n d A B U L) as [HE _].
  pose proof (digits_of_spec p n d (exp10 n d) ltac:(lia) A B HE eq_refl) as DS. destruct (digits_of p n d) as [r y] eqn:DG.
  destruct DS as (R & Y & _).
  assert (X : -307 <= exp10 n d <= 306).
  { clear -HE A B LO UP. unfold has_exp, scale in HE. set (x := exp10 n d) in *. clearbody x n d. destruct (0 <=? - x) eqn:C.
    - split; [|lia]. destruct (Z.le_gt_cases (-307) x) as [G|G]; [exact G|exfalso].
      assert (F : 10 ^ 307 * 10 <= 10 ^ (- x)) by (transitivity (10 ^ 308); [vm_compute; discriminate|apply Z.pow_le_mono_r; lia]).
      set (u := 10 ^ 307) in *. set (w := 10 ^ (- x)) in *. clearbody u w. nia.
    - split; [lia|]. destruct (Z.le_gt_cases x 306) as [G|G]; [exact G|exfalso]. replace (- - x) with x in HE by lia.
      assert (F : 10 ^ 307 <= 10 ^ x) by (apply Z.pow_le_mono_r; lia).
      set (u := 10 ^ 307) in *. set (w := 10 ^ x) in *. clearbody u w. nia. }
  destruct (g_text_spec p n d r y P DG R ltac:(lia)) as (t & G & OK & MP & S & LEN).
  exists r, y, t. split; [reflexivity|]. split; [exact R|]. split; [lia|]. split; [rewrite print_finite; exact G|].
  split; [exact OK|]. split; [exact MP|]. split; [exact S|]. split; [exact LEN|].
  intros c Hc. rewrite (scan_nt c t Hc OK). symmetry. apply decimal_same; [pose proof (p10 (p - 1)); lia|exact MP|exact S|].
  apply digits_ranged; [exact P|exact R|lia].
Qed.

(** * Decimal numbers of at most p digits *)
Lemma pad m p : 0 < m -> 1 <= p -> m < 10 ^ p -> exists j, 0 <= j < p /\ 10 ^ (p - 1) <= m * 10 ^ j < 10 ^ p.
Proof.
  intros M P. revert m M. pattern p. apply (Zlt_lower_bound_ind _ 1); [|exact P]. clear p P. intros p IH P m M U.
  destruct (Z.le_gt_cases (10 ^ (p - 1)) m) as [C|C]; [exists 0; change (10 ^ 0) with 1; lia|].
  assert (p <> 1). { intros ->. cbn in C. lia. }
  destruct (IH (p - 1) ltac:(lia) m M C) as (j & J & B). exists (j + 1). split; [lia|].
  replace (10 ^ p) with (10 * 10 ^ (p - 1)) by (rewrite <- p10S by lia; f_equal; lia).
  replace (10 ^ (p - 1)) with (10 * 10 ^ (p - 1 - 1)) at 1 by (rewrite <- p10S by lia; f_equal; lia). rewrite p10S by lia. lia.
Qed.
Lemma same10_sym m k m' k' : same10 m k m' k' -> same10 m' k' m k.
Proof. unfold same10. lia. Qed.
Lemma decimal_pad m p k : 0 < m -> 1 <= p -> m < 10 ^ p -> exists r y, 10 ^ (p - 1) <= r < 10 ^ p /\ same10 r (y - (p - 1)) m k.
Proof.
  intros M P U. destruct (pad m p M P U) as (j & J & B). exists (m * 10 ^ j), (k - j + (p - 1)). split; [exact B|].
  replace (k - j + (p - 1) - (p - 1)) with (k - j) by lia. replace k with (k - j + j) at 2 by lia. apply same10_shift. lia.
Qed.
Lemma decimal_finite m k : 0 < m -> ranged (num10 m k) (den10 m k) ->
  exists mx ex, d_decimal m k = S754_finite false mx ex /\ normal mx ex /\
    (let N := num10 m k in let D := den10 m k in let n := frac_n mx ex in let d := frac_d ex in
     - (N * d) <= 2 ^ 53 * (n * D - N * d) <= N * d).
Proof.
  intros M R. pose proof (num10_pos m k M) as HN. pose proof (den10_pos m k M) as HD.
  destruct (ranged_exists _ _ HN HD R) as (G & MG & HM). rewrite (decimal_near m k G M R MG HM).
  destruct (near_finite false _ _ G HN HD MG ltac:(lia) (proj2 R)) as (mx & ex & -> & NO & ER).
  exists mx, ex. split; [reflexivity|]. split; [exact NO|]. destruct NO as [[_ NM] NE]. cbn zeta.
  destruct (frac_spec mx ex NM NE) as (A & B & EQ & _). destruct MG as [M1 _].
  replace (G - 1) with (G - 53 + 52) in M1 by lia. rewrite q2_add in M1 by (unfold K0; lia).
  pose proof (q2_pos 0 ltac:(unfold K0; lia)) as Q0. pose proof (q2_pos (G - 53) ltac:(unfold K0; lia)) as QE.
  set (N := num10 m k) in *. set (D := den10 m k) in *. set (n := frac_n mx ex) in *. set (d := frac_d ex) in *.
  set (w := q2 0) in *. set (u := q2 (G - 53)) in *. set (v := Z.pos mx * q2 ex) in *. clearbody N D n d w u v.
  change (2 ^ 53) with (2 * 2 ^ 52). set (b := 2 ^ 52) in *. assert (0 < b) by (vm_compute; reflexivity). clearbody b.
  assert (X1 : n * w * D = v * d * D) by (rewrite EQ; ring).
  assert (X2 : 2 * (n * D - N * d) * w = 2 * (v * D - N * w) * d) by (replace (2 * (n * D - N * d) * w) with (2 * (n * w * D) - 2 * N * d * w) by ring; rewrite X1; ring).
  assert (X3 : 2 * (v * D - N * w) * d <= D * u * d) by nia.
  assert (X4 : - (D * u * d) <= 2 * (v * D - N * w) * d) by nia.
  assert (X5 : D * u * d * b <= N * w * d) by nia.
  split.
  - apply (Z.mul_le_mono_pos_r _ _ w Q0). replace (2 * b * (n * D - N * d) * w) with (b * (2 * (n * D - N * d) * w)) by ring. rewrite X2. nia.
  - apply (Z.mul_le_mono_pos_r _ _ w Q0). replace (2 * b * (n * D - N * d) * w) with (b * (2 * (n * D - N * d) * w)) by ring. rewrite X2. nia.
Qed.
(** A number of at most p digits is printed with these digits. *)
Lemma decimal_digits p m k mx ex : 1 <= p <= 15 -> 0 < m -> m < 10 ^ p -> ranged (num10 m k) (den10 m k) ->
  d_decimal m k = S754_finite false mx ex ->
  exists r y, 10 ^ (p - 1) <= r < 10 ^ p /\ same10 r (y - (p - 1)) m k /\ digits_of p (frac_n mx ex) (frac_d ex) = (r, y).
Proof.
  intros P M U R E. destruct (decimal_pad m p k M ltac:(lia) U) as (r & y & B & S). exists r, y. split; [exact B|]. split; [exact S|].
  destruct (decimal_finite m k M R) as (mx' & ex' & E' & NO & ER). rewrite E in E'. injection E' as <- <-. cbn zeta in ER.
  pose proof (p10 (p - 1) ltac:(lia)) as T. pose proof (num10_pos m k M) as HN. pose proof (den10_pos m k M) as HD.
  pose proof (den10_pos r (y - (p - 1)) ltac:(lia)) as HD'. destruct NO as [[_ NM] NE].
  destruct (frac_spec mx ex NM NE) as (A & F & _ & U1 & U2).
  apply recover; try assumption. cbn zeta. unfold same10 in S.
  set (N := num10 m k) in *. set (D := den10 m k) in *. set (n := frac_n mx ex) in *. set (d := frac_d ex) in *.
  set (N' := num10 r (y - (p - 1))) in *. set (D' := den10 r (y - (p - 1))) in *. clearbody N D n d N' D'.
  change (2 ^ 53) with 9007199254740992 in *.
  assert (X : D * (n * D' - N' * d) = D' * (n * D - N * d)) by (replace (D * (n * D' - N' * d)) with (D * n * D' - (N' * D) * d) by ring; rewrite <- S || rewrite S; ring).
  assert (Y : D * (N' * d) = D' * (N * d)) by (replace (D * (N' * d)) with ((N' * D) * d) by ring; rewrite <- S || rewrite S; ring).
  split.
  - apply (Z.mul_le_mono_pos_l _ _ D HD). replace (D * (9007199254740992 * (n * D' - N' * d))) with (9007199254740992 * (D * (n * D' - N' * d))) by ring.
    rewrite X. replace (D * - (N' * d)) with (- (D * (N' * d))) by ring. rewrite Y. nia.
  - apply (Z.mul_le_mono_pos_l _ _ D HD). replace (D * (9007199254740992 * (n * D' - N' * d))) with (9007199254740992 * (D * (n * D' - N' * d))) by ring.
    rewrite X, Y. nia.
Qed.
