(** Properties C01-C08: periods and samples. *)
From Coq Require Import ZArith Ascii String List Bool.
From Verif Require Import M_Base M_Time S_Time L_Time.
Import ListNotations.
Open Scope Z_scope.

(** C01: shifting by n gives a valid period of the same periodicity, n single steps away, and
    [difference] measures n. *)
Theorem C01_shift_exact : forall p n, valid_period p ->
  exists q, shift p n = Ok q /\ valid_period q /\ per q = per p /\ distance n p q /\ difference q p = Ok n.
Proof. exact shift_valid. Qed.
Print Assumptions C01_shift_exact.
Example C01_ex : valid_period (mkP 2000 3 "Q") /\ shift (mkP 2000 3 "Q") (-7) = Ok (mkP 1998 4 "Q").
Proof. split; [exists 4; repeat split; (constructor || (cbn; discriminate))|reflexivity]. Qed.

(** C02: shifts compose; shift by 0 is the identity. *)
Theorem C02_shift_compose : forall p a b, valid_period p ->
  (do q <- shift p a; shift q b) = shift p (a + b).
Proof. exact shift_compose. Qed.
Print Assumptions C02_shift_compose.
Theorem C02_shift_zero : forall p, valid_period p -> shift p 0 = Ok p.
Proof. exact shift_zero. Qed.
Print Assumptions C02_shift_zero.
Example C02_ex : (do q <- shift (mkP 2000 11 "M") 5; shift q (-29)) = Ok (mkP 1998 11 "M").
Proof. reflexivity. Qed.

(** C03: [difference] is an exact signed distance. *)
Theorem C03_difference_laws : forall p q r, valid_period p -> valid_period q -> valid_period r ->
  per q = per p -> per r = per p ->
  exists a b, difference p q = Ok a /\ difference q p = Ok (- a) /\ difference q r = Ok b /\
    difference p r = Ok (a + b) /\ (a = 0 <-> period_eqb p q = true) /\
    distance a q p /\ shift q a = Ok p.
Proof. exact difference_laws. Qed.
Print Assumptions C03_difference_laws.
Theorem C03_difference_rejects : forall p q, per p <> per q -> difference p q = Throw.
Proof. exact difference_throw. Qed.
Print Assumptions C03_difference_rejects.
Example C03_ex : difference (mkP 2001 2 "M") (mkP 1999 11 "M") = Ok 15 /\
  difference (mkP 2001 2 "M") (mkP 1999 1 "Q") = Throw.
Proof. split; reflexivity. Qed.

(** C04: text round trip. *)
Theorem C04_text_roundtrip : forall p, valid_period p -> 1000 <= year p <= 9999 ->
  parse_period (period_to_string p) = Ok p.
Proof. exact parse_print. Qed.
Print Assumptions C04_text_roundtrip.
Theorem C04_text_injective : forall p q, valid_period p -> valid_period q ->
  1000 <= year p <= 9999 -> 1000 <= year q <= 9999 ->
  period_to_string p = period_to_string q -> p = q.
Proof. exact print_inj. Qed.
Print Assumptions C04_text_injective.
Example C04_ex : period_to_string (mkP 2015 11 "M") = S2L "2015M11" /\ parse_period (S2L "2015M11") = Ok (mkP 2015 11 "M").
Proof. split; reflexivity. Qed.

(** C05 is false: the text "2000Y0" (and "2000Q-3") is accepted and gives step 0 (-3). *)
Theorem C05_accepted_is_valid_refuted :
  (exists s p, parse_period s = Ok p /\ ~ valid_period p) /\
  parse_period (S2L "2000Y0") = Ok (mkP 2000 0 "Y") /\ parse_period (S2L "2000Q-3") = Ok (mkP 2000 (-3) "Q").
Proof.
  split; [exists (S2L "2000Y0"), (mkP 2000 0 "Y")|repeat split; reflexivity].
  split; [reflexivity|]. intros (nb & _ & H & _). cbn in H. apply H. reflexivity.
Qed.
Print Assumptions C05_accepted_is_valid_refuted.
(** What is true: only the lower bound of the step can be wrong, and it is right when the first
    character after the periodicity letter is a digit 1 to 9. *)
Theorem C05_accepted_partial : forall s p, parse_period s = Ok p ->
  (exists nb, sub_periods (per p) nb /\ step p <= nb /\ 200 <= year p <= 9999) /\
  (valid_period p <-> 1 <= step p) /\
  (49 <= code (char_at s 5) <= 57 -> valid_period p).
Proof. exact (fun s p H => conj (parse_accepts s p H) (conj (parse_valid_iff s p H) (parse_valid s p H))). Qed.
Print Assumptions C05_accepted_partial.
Example C05_ex : parse_period (S2L "1999w52") = Ok (mkP 1999 52 "W") /\ parse_period (S2L "1999w53") = Throw.
Proof. split; reflexivity. Qed.

(** C06: a sample numbers its periods consistently. *)
Theorem C06_positions : forall s, sample_ok s ->
  (forall i, 0 <= i < s_nb s -> exists q, shift (s_start s) i = Ok q /\ position s q = Ok i) /\
  (forall p, valid_period p -> per p = per (s_start s) ->
     (between (s_start s) (s_end s) p -> exists i, position s p = Ok i /\ 0 <= i < s_nb s /\ shift (s_start s) i = Ok p) /\
     (~ between (s_start s) (s_end s) p -> position s p = Throw)).
Proof. exact position_shift. Qed.
Print Assumptions C06_positions.
Theorem C06_other_periodicity : forall s p, per p <> per (s_start s) -> position s p = Throw.
Proof. exact position_other. Qed.
Print Assumptions C06_other_periodicity.
Theorem C06_list : forall s, sample_ok s ->
  exists ps, list_periods s = Ok (map period_to_string ps) /\
    Z.of_nat (length ps) = s_nb s /\
    (forall i, (i < length ps)%nat -> shift (s_start s) (Z.of_nat i) = Ok (nth i ps period0)) /\
    (forall p, In p ps <-> between (s_start s) (s_end s) p).
Proof. exact list_periods_spec. Qed.
Print Assumptions C06_list.
Example C06_ex : exists s, parse_sample (S2L "1999Q3") (S2L "2000Q2") = Ok s /\ s_nb s = 4 /\
  list_periods s = Ok [S2L "1999Q3"; S2L "1999Q4"; S2L "2000Q1"; S2L "2000Q2"] /\
  position s (mkP 2000 1 "Q") = Ok 2 /\ position s (mkP 2000 3 "Q") = Throw.
Proof. eexists. split; [reflexivity|]. repeat split; reflexivity. Qed.

(** C07: intersection of samples is intersection of sets of periods. *)
Theorem C07_intersection : forall s o, sample_ok s -> sample_ok o -> per (s_start s) = per (s_start o) ->
  (forall r, intersection s o = Ok r ->
     sample_ok r /\
     forall p, between (s_start r) (s_end r) p <->
               between (s_start s) (s_end s) p /\ between (s_start o) (s_end o) p) /\
  (intersection s o = Throw <->
     forall p, ~ (between (s_start s) (s_end s) p /\ between (s_start o) (s_end o) p)).
Proof. exact intersection_spec. Qed.
Print Assumptions C07_intersection.
Example C07_ex : exists a b r, parse_sample (S2L "1990Y1") (S2L "2000Y1") = Ok a /\ parse_sample (S2L "1995Y1") (S2L "2010Y1") = Ok b /\
  parse_sample (S2L "1995Y1") (S2L "2000Y1") = Ok r /\ intersection a b = Ok r /\ intersection b a = Ok r.
Proof. do 3 eexists. do 3 (split; [reflexivity|]). split; reflexivity. Qed.

(** C08 is false: the 16-bit count wraps for a daily sample of a century. *)
Theorem C08_count_refuted : exists a b s n, valid_period a /\ valid_period b /\ steps n a b /\
  make_sample a b = Ok s /\ s_nb s <> Z.of_nat n + 1 /\ s_nb s < 0.
Proof.
  exists (mkP 1900 1 "D"), (mkP 2000 1 "D").
  assert (Va : valid_period (mkP 1900 1 "D")) by (exists 365; repeat split; (constructor || (cbn; discriminate))).
  assert (Vb : valid_period (mkP 2000 1 "D")) by (exists 365; repeat split; (constructor || (cbn; discriminate))).
  exists (mkS (mkP 1900 1 "D") (mkP 2000 1 "D") (-29035)), (Z.to_nat 36500).
  split; [exact Va|]. split; [exact Vb|].
  split; [apply (steps_ex _ _ _ 365); [constructor|exact Va|exact Vb|reflexivity|];
          rewrite Z2Nat.id by discriminate; reflexivity|].
  split; [reflexivity|]. split; [|reflexivity].
  rewrite Z2Nat.id by discriminate. cbn. discriminate.
Qed.
Print Assumptions C08_count_refuted.
(** The count is right for samples of at most 32767 periods. *)
Theorem C08_count_partial : forall a b n, valid_period a -> steps n a b -> Z.of_nat n < 32767 ->
  exists s, make_sample a b = Ok s /\ s_start s = a /\ s_end s = b /\ s_nb s = Z.of_nat n + 1 /\ sample_ok s.
Proof. exact make_sample_count. Qed.
Print Assumptions C08_count_partial.
Theorem C08_rejects : forall a b, valid_period a -> valid_period b ->
  (make_sample a b = Throw <-> ~ exists n, steps n a b).
Proof. exact make_sample_throw. Qed.
Print Assumptions C08_rejects.
Example C08_ex : exists s, parse_sample (S2L "1900D1") (S2L "1980D1") = Ok s /\ s_nb s = 29201.
Proof. eexists; split; reflexivity. Qed.
