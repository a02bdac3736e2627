(** Lemmas on the rounding of SpecFloat: the result of binary_round_aux, binary_normalize and SFdiv on a positive number is
    [near], a function of the ratio. *)
From Coq Require Import ZArith Ascii String List Bool Lia Floats.SpecFloat.
From Verif Require Import M_Base M_Double M_Decimal L_Decimal.
From Coq Require Import Floats.FloatOps.
Import ListNotations.
Open Scope Z_scope.

Lemma p2 k : 0 <= k -> 0 < 2 ^ k.
Proof. intros. apply Z.pow_pos_nonneg; lia. Qed.
Lemma p2S k : 0 <= k -> 2 ^ (k + 1) = 2 * 2 ^ k.
Proof. intros. rewrite Z.pow_add_r by lia. lia. Qed.

(** * Records of the rounding *)
Definition inrec (n d : Z) (x : shr_record) : Prop :=
  shr_m x = n / d /\ shr_r x = (d <=? 2 * (n mod d)) /\ shr_s x = negb (2 * (n mod d) =? if shr_r x then d else 0).
Lemma inrec_shr n d x : 0 <= n -> 0 < d -> inrec n d x -> inrec n (d * 2) (shr_1 x).
Proof.
  intros N D (M & R & S). destruct x as [m r s]. cbn [shr_m shr_r shr_s] in *.
  pose proof (Z.div_mod n d ltac:(lia)) as E. pose proof (Z.mod_pos_bound n d D) as B.
  assert (Q0 : 0 <= n / d) by (apply Z.div_pos; lia).
  rewrite <- M in *. set (k := n mod d) in *.
  assert (OS : (r || s) = negb (k =? 0)) by (subst s r; destruct (d <=? 2 * k) eqn:A; cbn [orb]; lia).
  assert (G : forall q b, m = 2 * q + (if b : bool then 1 else 0) -> inrec n (d * 2) {| shr_m := q; shr_r := b; shr_s := r || s |}).
  { intros q b Hm. assert (F : n = (d * 2) * q + ((if b then d else 0) + k)) by (rewrite E, Hm; destruct b; ring).
    assert (DIV : n / (d * 2) = q) by (symmetry; apply (Z.div_unique_pos n (d * 2) q ((if b then d else 0) + k)); [destruct b; lia|exact F]).
    assert (MOD : n mod (d * 2) = (if b then d else 0) + k) by (symmetry; apply (Z.mod_unique_pos n (d * 2) q); [destruct b; lia|exact F]).
    unfold inrec. cbn [shr_m shr_r shr_s]. rewrite DIV, MOD, OS. repeat split; [destruct b; lia|]. destruct b; lia. }
  unfold shr_1. destruct m as [|[p|p|]|p]; try (apply G; lia). lia.
Qed.
Lemma inrec_iter p : forall n d x, 0 <= n -> 0 < d -> inrec n d x -> inrec n (d * 2 ^ Z.pos p) (iter_pos shr_1 p x).
Proof.
  induction p as [p IH|p IH|]; intros n d x N D H; cbn [iter_pos].
  - replace (d * 2 ^ Z.pos p~1) with (d * 2 * 2 ^ Z.pos p * 2 ^ Z.pos p)
      by (rewrite (Pos2Z.inj_xI p), Z.pow_add_r, Z.pow_mul_r by lia; change (2 ^ 2) with (2 * 2); rewrite Z.pow_mul_l; change (2 ^ 1) with 2; ring).
    pose proof (p2 (Z.pos p) ltac:(lia)). apply IH; [exact N|nia|]. apply IH; [exact N|lia|]. apply inrec_shr; assumption.
  - replace (d * 2 ^ Z.pos p~0) with (d * 2 ^ Z.pos p * 2 ^ Z.pos p)
      by (rewrite (Pos2Z.inj_xO p), Z.pow_mul_r by lia; change (2 ^ 2) with (2 * 2); rewrite Z.pow_mul_l; ring).
    pose proof (p2 (Z.pos p) ltac:(lia)). apply IH; [exact N|nia|]. apply IH; assumption.
  - change (2 ^ 1) with 2. apply inrec_shr; assumption.
Qed.
Lemma inrec_round n d x : 0 < d -> inrec n d x -> round_nearest_even (shr_m x) (loc_of_shr_record x) = round_div n d.
Proof.
  intros D (M & R & S). destruct x as [m r s]. cbn [shr_m shr_r shr_s] in *. unfold round_div. rewrite <- M.
  set (k := n mod d) in *. clearbody k. subst r. destruct (Z.compare_spec (2 * k) d) as [C|C|C]; destruct (Z.leb_spec d (2 * k)); try lia;
    match type of S with _ = negb ?b => destruct b eqn:X end; subst s; cbn [negb loc_of_shr_record round_nearest_even]; try reflexivity;
    (apply Z.eqb_eq in X || apply Z.eqb_neq in X); lia.
Qed.
Lemma inrec_exact n : inrec n 1 (shr_record_of_loc n loc_Exact).
Proof. unfold inrec. cbn [shr_record_of_loc shr_m shr_r shr_s]. rewrite Z.div_1_r, Z.mod_1_r. repeat split. Qed.
Lemma inrec_location n d : 0 < d -> inrec n d (shr_record_of_loc (n / d) (new_location d (n mod d))).
Proof.
  intros D. pose proof (Z.mod_pos_bound n d D) as B. unfold new_location, new_location_even, new_location_odd, inrec. set (k := n mod d) in *.
  destruct (Z.even d) eqn:Ev; destruct (Zeq_bool k 0) eqn:K; (apply Zeq_bool_eq in K || apply Zeq_bool_neq in K).
  - cbn. rewrite K. repeat split; lia.
  - destruct (Z.compare_spec (2 * k) d); cbn [shr_record_of_loc shr_m shr_r shr_s]; repeat split; lia.
  - cbn. rewrite K. repeat split; lia.
  - assert (Od : 2 * k <> d) by (intros F; rewrite <- F, Z.even_mul in Ev; discriminate Ev).
    destruct (Z.compare_spec (2 * k + 1) d); cbn [shr_record_of_loc shr_m shr_r shr_s]; repeat split; lia.
Qed.

(** * Binary digits *)
Lemma digits2_bounds p : 2 ^ (Z.pos (digits2_pos p) - 1) <= Z.pos p < 2 ^ Z.pos (digits2_pos p).
Proof.
  induction p as [p IH|p IH|]; cbn [digits2_pos]; [| |cbn; lia];
    rewrite Pos2Z.inj_succ; replace (Z.succ (Z.pos (digits2_pos p)) - 1) with (Z.pos (digits2_pos p) - 1 + 1) by lia;
    rewrite <- Z.add_1_r, !p2S by lia; lia.
Qed.
Lemma Zdigits2_bounds z : 0 < z -> 1 <= Zdigits2 z /\ 2 ^ (Zdigits2 z - 1) <= z < 2 ^ Zdigits2 z.
Proof. intros H. destruct z as [|p|p]; try lia. cbn [Zdigits2]. split; [lia|apply digits2_bounds]. Qed.
Lemma digits_unique z k : 0 < z -> 1 <= k -> 2 ^ (k - 1) <= z < 2 ^ k -> Zdigits2 z = k.
Proof.
  intros Z0 K H. destruct (Zdigits2_bounds z Z0) as [D1 D2]. set (q := Zdigits2 z) in *.
  destruct (Z.lt_trichotomy q k) as [C|[C|C]]; [|exact C|].
  - assert (2 ^ q <= 2 ^ (k - 1)) by (apply Z.pow_le_mono_r; lia). lia.
  - assert (2 ^ k <= 2 ^ (q - 1)) by (apply Z.pow_le_mono_r; lia). lia.
Qed.

(** * The result *)
Definition norm (s : bool) (m e : Z) : dbl :=
  match m with Z.pos p => if e <=? 971 then S754_finite s p e else S754_infinity s | _ => S754_zero s end.
Definition finish (s : bool) (m e : Z) : dbl := if m =? 2 ^ 53 then norm s (2 ^ 52) (e + 1) else norm s m e.
Definition fx (M : Z) : Z := Z.max (M - 53) (-1074).
Lemma fexp_fx M : fexp prec emax M = fx M.
Proof. reflexivity. Qed.

Lemma aux_spec s n d ex l : 0 < d -> 0 < n / d -> ex <= fx (Zdigits2 (n / d) + ex) -> inrec n d (shr_record_of_loc (n / d) l) ->
  let E := fx (Zdigits2 (n / d) + ex) in
  binary_round_aux prec emax s (n / d) ex l = finish s (round_div n (d * 2 ^ (E - ex))) E.
Proof.
  intros D Q LE R E. unfold binary_round_aux, shr_fexp. rewrite fexp_fx. fold E.
  assert (N : 0 <= n) by (destruct (Z.le_gt_cases 0 n) as [C|C]; [exact C|assert (n / d < 0) by (apply Z.div_lt_upper_bound; lia); lia]).
  assert (S1 : exists x, shr (shr_record_of_loc (n / d) l) ex (E - ex) = (x, E) /\ inrec n (d * 2 ^ (E - ex)) x).
  { unfold shr. destruct (E - ex) as [|p|p] eqn:K; [| |subst E; lia].
    - exists (shr_record_of_loc (n / d) l). split; [f_equal; lia|]. change (2 ^ 0) with 1. rewrite Z.mul_1_r. exact R.
    - exists (iter_pos shr_1 p (shr_record_of_loc (n / d) l)). split; [f_equal; lia|]. apply inrec_iter; assumption. }
  destruct S1 as (x & -> & X). pose proof (p2 (E - ex) ltac:(subst E; lia)) as P2.
  rewrite (inrec_round n (d * 2 ^ (E - ex)) x) by (exact X || nia).
  set (b := d * 2 ^ (E - ex)) in *. assert (B : 0 < b) by (unfold b; nia).
  pose proof (round_div_bound n b B N) as [RB R0]. set (k := round_div n b) in *.
  destruct (Zdigits2_bounds (n / d) Q) as [D1 [D2 D3]]. set (M := Zdigits2 (n / d)) in *.
  (* n < 2^53 * b *)
  assert (U : n < 2 ^ 53 * b).
  { assert (n < 2 ^ M * d). { pose proof (Z.div_mod n d ltac:(lia)). pose proof (Z.mod_pos_bound n d D). nia. }
    assert (2 ^ M <= 2 ^ 53 * 2 ^ (E - ex)).
    { rewrite <- Z.pow_add_r by (subst E; lia). apply Z.pow_le_mono_r; [lia|]. subst E. unfold fx. lia. }
    unfold b. nia. }
  assert (K : k <= 2 ^ 53) by nia.
  unfold finish. destruct (k =? 2 ^ 53) eqn:C.
  - apply Z.eqb_eq in C. rewrite C. rewrite fexp_fx. change (Zdigits2 (2 ^ 53)) with 54.
    assert (F : fx (54 + E) - E = 1) by (subst E; unfold fx; lia). rewrite F. cbn [shr shr_record_of_loc iter_pos].
    change (shr_1 {| shr_m := 2 ^ 53; shr_r := false; shr_s := false |}) with {| shr_m := 2 ^ 52; shr_r := false; shr_s := false |}.
    cbn [shr_m]. reflexivity.
  - apply Z.eqb_neq in C. assert (F : fx (Zdigits2 k + E) - E <= 0).
    { destruct (Z.eq_dec k 0) as [Z0|NZ]; [rewrite Z0; cbn [Zdigits2]; subst E; unfold fx; lia|].
      destruct (Zdigits2_bounds k ltac:(lia)) as [K1 [K2 K3]].
      assert (Zdigits2 k <= 53).
      { destruct (Z.le_gt_cases (Zdigits2 k) 53) as [A|A]; [exact A|]. exfalso.
        assert (2 ^ 53 <= 2 ^ (Zdigits2 k - 1)) by (apply Z.pow_le_mono_r; lia). lia. }
      subst E. unfold fx. lia. }
    rewrite fexp_fx. unfold shr. destruct (fx (Zdigits2 k + E) - E) as [|p|p] eqn:G; [|lia|]; cbn [shr_record_of_loc shr_m]; unfold norm;
      destruct k as [|q|q]; try reflexivity; lia.
Qed.

(** * Exponents of two with a common denominator *)
Definition K0 : Z := 3000.
Definition q2 (z : Z) : Z := 2 ^ (z + K0).
Lemma q2_pos z : - K0 <= z -> 0 < q2 z.
Proof. intros. apply p2. lia. Qed.
Lemma q2_add z k : - K0 <= z -> 0 <= k -> q2 (z + k) = q2 z * 2 ^ k.
Proof. intros. unfold q2. rewrite <- Z.pow_add_r by lia. f_equal. lia. Qed.
(** 2^(M-1) <= N / D < 2^M *)
Definition mag (N D M : Z) : Prop := D * q2 (M - 1) <= N * q2 0 < D * q2 M.
Lemma mag_unique N D M M' : 0 < D -> - K0 < M -> - K0 < M' -> mag N D M -> mag N D M' -> M = M'.
Proof.
  assert (G : forall M M', 0 < D -> - K0 < M -> - K0 < M' -> mag N D M -> mag N D M' -> M' <= M).
  { clear. intros M M' D0 H H' [A B] [A' B']. destruct (Z.le_gt_cases M' M) as [C|C]; [exact C|exfalso].
    assert (q2 M <= q2 (M' - 1)) by (unfold q2; apply Z.pow_le_mono_r; lia). nia. }
  intros D0 H H' A B. pose proof (G M M' D0 H H' A B). pose proof (G M' M D0 H' H B A). lia.
Qed.
Definition near (s : bool) (N D M : Z) : dbl := finish s (round_div (N * q2 0) (D * q2 (fx M))) (fx M).
Lemma near_ratio s N D N' D' M : 0 < D -> 0 < D' -> N * D' = N' * D -> near s N D M = near s N' D' M.
Proof.
  intros H H' E. unfold near. f_equal. pose proof (q2_pos (fx M) ltac:(unfold fx, K0; lia)).
  apply round_div_ratio; [nia|nia|]. transitivity ((N * D') * q2 0 * q2 (fx M)); [ring|]. rewrite E. ring.
Qed.
Lemma mag_ratio N D N' D' M : 0 < D -> 0 < D' -> N * D' = N' * D -> mag N D M -> mag N' D' M.
Proof.
  intros H H' E [A B]. split.
  - apply (Z.mul_le_mono_pos_r _ _ D); [exact H|]. replace (N' * q2 0 * D) with (N * q2 0 * D') by (transitivity ((N' * D) * q2 0); [rewrite <- E; ring|ring]). nia.
  - apply (Z.mul_lt_mono_pos_r D); [exact H|]. replace (N' * q2 0 * D) with (N * q2 0 * D') by (transitivity ((N' * D) * q2 0); [rewrite <- E; ring|ring]). nia.
Qed.

(** (n / d) * 2^ex = N / D *)
Lemma aux_near s n d ex l N D M : 0 < d -> 0 < D -> 0 < n / d -> -1074 <= ex -> n * q2 ex * D = N * q2 0 * d ->
  mag N D M -> - K0 < M -> ex <= fx M -> inrec n d (shr_record_of_loc (n / d) l) ->
  binary_round_aux prec emax s (n / d) ex l = near s N D M.
Proof.
  intros Hd HD Q EX E MG HM LE R. destruct (Zdigits2_bounds (n / d) Q) as [D1 [D2 D3]].
  pose proof (q2_pos ex ltac:(unfold K0; lia)) as QX.
  assert (MM : Zdigits2 (n / d) + ex = M).
  { apply (mag_unique N D); [exact HD|unfold K0; lia|exact HM| |exact MG]. pose proof (Z.div_mod n d ltac:(lia)) as DM. pose proof (Z.mod_pos_bound n d Hd) as MB.
    set (q := Zdigits2 (n / d)) in *. unfold mag.
    replace (q + ex - 1) with (ex + (q - 1)) by lia. replace (q + ex) with (ex + q) by lia. rewrite !q2_add by (unfold K0; lia).
    assert (L1 : 2 ^ (q - 1) * d <= n) by nia. assert (L2 : n < 2 ^ q * d) by nia. split.
    - apply (Z.mul_le_mono_pos_r _ _ d); [exact Hd|]. rewrite <- E. nia.
    - apply (Z.mul_lt_mono_pos_r d); [exact Hd|]. rewrite <- E. nia. }
  pose proof (aux_spec s n d ex l Hd Q) as A. cbn zeta in A. rewrite MM in A. rewrite (A LE R). unfold near. f_equal.
  pose proof (p2 (fx M - ex) ltac:(lia)). pose proof (q2_pos (fx M) ltac:(unfold fx, K0; lia)).
  apply round_div_ratio; [nia|nia|]. replace (fx M) with (ex + (fx M - ex)) at 1 by lia. rewrite q2_add by (unfold K0; lia).
  transitivity (n * q2 ex * D * 2 ^ (fx M - ex)); [ring|]. rewrite E. ring.
Qed.

(** * Integers *)
Lemma round_near s p e N D M : 0 < D -> Z.pos p * q2 e * D = N * q2 0 -> -1074 <= e -> mag N D M -> - K0 < M ->
  binary_round prec emax s p e = near s N D M.
Proof.
  intros HD E EE MG HM. unfold binary_round, shl_align. rewrite fexp_fx.
  assert (MM : Z.pos (digits2_pos p) + e = M).
  { apply (mag_unique N D); [exact HD|unfold K0; lia|exact HM| |exact MG]. pose proof (digits2_bounds p) as B.
    pose proof (q2_pos e ltac:(unfold K0; lia)). unfold mag. set (q := Z.pos (digits2_pos p)) in *. assert (1 <= q) by (unfold q; lia).
    replace (q + e - 1) with (e + (q - 1)) by lia. replace (q + e) with (e + q) by lia. rewrite !q2_add by (unfold K0; lia). rewrite <- E. nia. }
  rewrite MM. destruct (fx M - e) as [|d|d] eqn:G.
  - rewrite <- (Z.div_1_r (Z.pos p)). apply aux_near; try (rewrite ?Z.div_1_r; lia || assumption). rewrite Z.div_1_r. apply inrec_exact.
  - rewrite <- (Z.div_1_r (Z.pos p)). apply aux_near; try (rewrite ?Z.div_1_r; lia || assumption). rewrite Z.div_1_r. apply inrec_exact.
  - rewrite <- (Z.div_1_r (Z.pos (shift_pos d p))).
    assert (SP : Z.pos (shift_pos d p) = Z.pos p * 2 ^ Z.pos d).
    { rewrite shift_pos_correct. rewrite Z.mul_comm. reflexivity. }
    apply aux_near; try (rewrite ?Z.div_1_r; lia || assumption); [unfold fx; lia| |rewrite Z.div_1_r; apply inrec_exact].
    rewrite SP. replace e with (fx M + Z.pos d) in E by lia. rewrite q2_add in E by (unfold fx, K0; lia). rewrite Z.mul_1_r, <- E. ring.
Qed.
Lemma ofZ_near N M : 0 < N -> mag N 1 M -> - K0 < M -> d_ofZ N = near false N 1 M.
Proof.
  intros P MG HM. destruct N as [|p|p]; try lia. unfold d_ofZ, binary_normalize. apply round_near; [lia|ring|lia|exact MG|exact HM].
Qed.
Lemma ofZ_near_neg N M : 0 < N -> mag N 1 M -> - K0 < M -> d_ofZ (- N) = near true N 1 M.
Proof.
  intros P MG HM. destruct N as [|p|p]; try lia. unfold d_ofZ, binary_normalize. cbn [Z.opp]. apply round_near; [lia|ring|lia|exact MG|exact HM].
Qed.

(** * Quotients *)
Lemma div_near p q M : mag (Z.pos p) (Z.pos q) M -> -1021 <= M ->
  SFdiv prec emax (S754_finite false p 0) (S754_finite false q 0) = near false (Z.pos p) (Z.pos q) M.
Proof.
  intros MG HM. unfold SFdiv, SFdiv_core_binary. rewrite fexp_fx.
  replace (Zdigits2 (Z.pos p) + 0 - (Zdigits2 (Z.pos q) + 0)) with (Zdigits2 (Z.pos p) - Zdigits2 (Z.pos q)) by ring.
  change (0 - 0) with 0. set (e := Z.min (fx (Zdigits2 (Z.pos p) - Zdigits2 (Z.pos q))) 0).
  assert (E0 : -1074 <= e <= 0) by (unfold e, fx; lia).
  assert (M' : match 0 - e with Z.pos _ => Z.shiftl (Z.pos p) (0 - e) | Z0 => Z.pos p | Z.neg _ => 0 end = Z.pos p * 2 ^ (- e)).
  { destruct (0 - e) as [|k|k] eqn:G; [replace (- e) with 0 by lia; change (2 ^ 0) with 1; lia| |lia].
    rewrite Z.shiftl_mul_pow2 by lia. f_equal. f_equal. lia. }
  rewrite M'. set (m' := Z.pos p * 2 ^ (- e)).
  rewrite (surjective_pairing (Z.div_eucl m' (Z.pos q))). change (fst (Z.div_eucl m' (Z.pos q))) with (m' / Z.pos q).
  change (snd (Z.div_eucl m' (Z.pos q))) with (m' mod Z.pos q). cbn [xorb].
  pose proof (Zdigits2_bounds (Z.pos p) ltac:(lia)) as (A1 & A2 & A3). pose proof (Zdigits2_bounds (Z.pos q) ltac:(lia)) as (B1 & B2 & B3).
  set (a := Zdigits2 (Z.pos p)) in *. set (b := Zdigits2 (Z.pos q)) in *. clearbody a b.
  destruct MG as [MG1 MG2].
  assert (GE : a - b <= M).
  { destruct (Z.le_gt_cases (a - b) M) as [C|C]; [exact C|exfalso].
    assert (X : q2 M * 2 ^ b <= q2 0 * 2 ^ (a - 1)).
    { unfold q2. rewrite <- !Z.pow_add_r by (unfold K0; lia). apply Z.pow_le_mono_r; unfold K0; lia. }
    pose proof (q2_pos 0 ltac:(unfold K0; lia)). pose proof (q2_pos M ltac:(unfold K0; lia)). nia. }
  assert (LE : e <= fx M) by (unfold e, fx in *; lia).
  pose proof (p2 (- e) ltac:(lia)) as PE.
  assert (EQ : m' * q2 e * Z.pos q = Z.pos p * q2 0 * Z.pos q).
  { unfold m'. replace (q2 0) with (q2 (e + (- e))) by (f_equal; lia). rewrite q2_add by (unfold K0; lia). ring. }
  assert (POS : 0 < m' / Z.pos q).
  { apply Z.div_str_pos. split; [lia|]. unfold m'.
    assert (X : q2 0 <= q2 (M - 1) * 2 ^ (- e)).
    { rewrite <- q2_add by (unfold K0; lia). unfold q2. apply Z.pow_le_mono_r; [lia|]. unfold e, fx in *. unfold K0. lia. }
    pose proof (q2_pos 0 ltac:(unfold K0; lia)). pose proof (q2_pos (M - 1) ltac:(unfold K0; lia)). nia. }
  apply aux_near; try lia; [split; assumption|unfold K0; lia|apply inrec_location; lia].
Qed.
