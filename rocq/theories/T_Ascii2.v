(** Properties C69 and C70: scalars and variables saved in an ASCII file and loaded again. *)
From Coq Require Import ZArith Ascii String List Bool Lia Sorted Floats.SpecFloat.
From Verif Require Import M_Base M_Time M_Names M_Lex M_Double M_Decimal M_Kdb M_Ascii S_Time S_Names S_Ascii
  L_Time L_Names L_Ascii L_Ascii2 L_Round L_Round2 L_Round3 L_Round4 L_Round5 L_Ascii3 T_Ascii.
Import ListNotations.
Open Scope Z_scope.

(** * Numbers *)
Lemma exact_writable p x : 2 <= p <= 15 -> exact p x -> writable p x /\ stored p x = x.
Proof.
  intros P [N [-> |[D|(y & D & ->)]]]; [split; [intros _; left; reflexivity|reflexivity]| |].
  - pose proof (decimal_printed p false x P D) as (t & PR & ST). unfold sgn in PR, ST.
    split; [|exact ST].
    intros _. right.
    exists t.
    exact PR.
  - pose proof (decimal_printed p true y P D) as (t & PR & ST). unfold sgn in PR, ST. split; [|exact ST]. intros _. right. exists t. exact PR.
Qed.
Lemma measured_writable p x : 2 <= p <= 15 -> measured x -> d_num x = true /\ writable p x /\ d_num (stored p x) = true.
Proof.
  intros P [-> |C]; [repeat split; left; reflexivity|]. split; [apply common_num; exact C|]. split.
  - intros _. right. apply common_printed; [lia|exact C].
  - exact (proj1 (stored_common p x P C)).
Qed.
Lemma missing_writable p x : missing x -> writable p x /\ kept p x = d_na.
Proof. unfold missing, writable, kept. intros M. split; [congruence|]. rewrite M. reflexivity. Qed.
Lemma kept_as_saved p x : 2 <= p <= 15 -> measured x \/ missing x -> as_saved p x (kept p x) /\ print_val p (kept p x) = print_val p x.
Proof.
  intros P [M|M].
  - destruct (measured_writable p x P M) as (N & _ & N'). unfold kept. rewrite N. destruct M as [-> |C].
    + split; [left; split; reflexivity|reflexivity].
    + destruct (stored_common p x P C) as (_ & CL & PR). split; [right; left; split; assumption|].
      unfold print_val. rewrite N, N', PR. reflexivity.
  - destruct (missing_writable p x M) as (_ & ->). split; [right; right; split; [exact M|reflexivity]|].
    unfold print_val. rewrite M. reflexivity.
Qed.

(** d_decimal m k, used in the specification of the numbers with at most p digits, is a double nearest to m * 10^k:
    no double is nearer to N / D = m * 10^k. *)
Theorem C69_nearest : forall p m k z, 1 <= p -> 0 < m < 10 ^ p -> -306 <= k <= 306 - p ->
  is_finite z -> valid_binary 53 1024 z = true -> negative z = false ->
  let x := d_decimal m k in let N := m * 10 ^ Z.max k 0 in let D := 10 ^ Z.max (- k) 0 in
  is_finite x /\ Z.abs (numer x * D - N * denom x) * denom z <= Z.abs (numer z * D - N * denom z) * denom x.
Proof.
  intros p m k z P M K F V S x N D. pose proof (small_ranged p m k P M K) as R. split.
  - destruct (decimal_finite m k ltac:(lia) R) as (mx & ex & E & _). unfold x. rewrite E. exact I.
  - pose proof (decimal_nearest m k z ltac:(lia) R F V S) as H. cbn zeta in H.
    replace (num10 m k) with N in H; [replace (den10 m k) with D in H; [exact H|]|]; unfold N, D, num10, den10, scale; destruct (0 <=? k) eqn:E; cbn [fst snd].
    + replace (Z.max (- k) 0) with 0 by lia. reflexivity.
    + replace (Z.max (- k) 0) with (- k) by lia. lia.
    + replace (Z.max k 0) with k by lia. reflexivity.
    + replace (Z.max k 0) with 0 by lia. change (10 ^ 0) with 1. lia.
Qed.
Print Assumptions C69_nearest.
(** 0.3: the double is not 3/10; its neighbour is further. *)
Example C69_nearest_ex : let x := d_decimal 3 (-1) in let z := d_add (d_dec 1 1) (d_dec 2 1) in
  is_finite z /\ valid_binary 53 1024 z = true /\ negative z = false /\ SFeqb x z = false /\
  0 < Z.abs (numer x * 10 - 3 * denom x) * denom z /\
  Z.abs (numer x * 10 - 3 * denom x) * denom z < Z.abs (numer z * 10 - 3 * denom z) * denom x.
Proof. vm_compute. repeat split. Qed.

(** * C69: scalars *)
(** Full statement: the scalars are saved and loaded without loss. It is false (see the theorems that follow); it holds
    for values and relaxation coefficients that are not NA and have at most 14 digits. *)
Theorem C69_scalars_partial : forall db, database SCALARS db -> no_sharp db ->
  Forall (fun v => exact 14 (value v) /\ exact 14 (relax v) /\ (std v = d_na \/ exact 14 (std v))) (map snd db) ->
  load_scalars (save_scalars db) = Done (true, db).
Proof.
  intros db D N P.
  assert (K : forall v, exact 14 (value v) /\ exact 14 (relax v) /\ (std v = d_na \/ exact 14 (std v)) -> scl_good v /\ scl_image v = v).
  { intros v (V & R & S). destruct (exact_writable 14 _ ltac:(lia) V) as [V1 V2]. destruct (exact_writable 14 _ ltac:(lia) R) as [R1 R2].
    destruct v as [v r s]. cbn [value relax std] in *. unfold scl_good, scl_image. cbn [value relax std]. rewrite V2, R2.
    destruct V as [V3 _]. destruct R as [R3 _].
    assert (SS : writable 14 s /\ kept 14 s = s).
    { destruct S as [-> |S]; [apply missing_writable; reflexivity|]. destruct (exact_writable 14 s ltac:(lia) S) as [S1 S2].
      split; [exact S1|]. unfold kept. rewrite S2. destruct S as [-> _]. reflexivity. }
    destruct SS as [S1 ->]. repeat split; assumption. }
  rewrite (load_scalars_ok db D N).
  - do 2 f_equal. clear D N. induction db as [|[n v] db IH]; [reflexivity|]. cbn [map fst snd] in *. inversion P as [|? ? Pv Pl]; subst.
    rewrite (proj2 (K v Pv)), IH by exact Pl. reflexivity.
  - eapply Forall_impl; [|exact P]. intros v Pv. apply K. exact Pv.
Qed.
Print Assumptions C69_scalars_partial.
(** Otherwise numbers are read with 14 digits; saving them again gives the same file. *)
Theorem C69_digits_partial : forall db, database SCALARS db -> no_sharp db ->
  Forall (fun v => measured (value v) /\ measured (relax v) /\ (measured (std v) \/ missing (std v))) (map snd db) ->
  exists db', load_scalars (save_scalars db) = Done (true, db') /\ map fst db' = map fst db /\
    Forall2 (fun v w => as_saved 14 (value v) (value w) /\ as_saved 14 (relax v) (relax w) /\ as_saved 14 (std v) (std w))
      (map snd db) (map snd db') /\
    save_scalars db' = save_scalars db.
Proof.
  intros db D N P. exists (map (fun x => (fst x, scl_image (snd x))) db). split; [|split; [|split]].
  - apply load_scalars_ok; [exact D|exact N|]. eapply Forall_impl; [|exact P]. intros v (V & R & S). unfold scl_good.
    split; [apply measured_writable; [lia|exact V]|]. split; [apply measured_writable; [lia|exact R]|].
    destruct S as [S|S]; [apply measured_writable; [lia|exact S]|apply missing_writable; exact S].
  - rewrite map_map. reflexivity.
  - rewrite map_map. clear D N. induction db as [|[n v] db IH]; cbn [map fst snd] in *; [constructor|]. inversion P as [|? ? (V & R & S) Pl]; subst.
    constructor; [|apply IH; exact Pl]. cbn [scl_image value relax std].
    destruct (measured_writable 14 _ ltac:(lia) V) as (V1 & _). destruct (measured_writable 14 _ ltac:(lia) R) as (R1 & _).
    destruct (kept_as_saved 14 (value v) ltac:(lia) (or_introl V)) as [V2 _]. destruct (kept_as_saved 14 (relax v) ltac:(lia) (or_introl R)) as [R2 _].
    destruct (kept_as_saved 14 (std v) ltac:(lia) S) as [S2 _]. unfold kept in V2, R2. rewrite V1 in V2. rewrite R1 in R2. repeat split; assumption.
  - unfold save_scalars. rewrite flat_map_concat_map, map_map, <- flat_map_concat_map. clear D N.
    induction db as [|[n v] db IH]; cbn [map fst snd flat_map] in *; [reflexivity|]. inversion P as [|? ? (V & R & S) Pl]; subst.
    rewrite IH by exact Pl. f_equal. cbn [scl_image value relax std].
    destruct (measured_writable 14 _ ltac:(lia) V) as (V1 & _). destruct (measured_writable 14 _ ltac:(lia) R) as (R1 & _).
    destruct (kept_as_saved 14 (value v) ltac:(lia) (or_introl V)) as [_ V2]. destruct (kept_as_saved 14 (relax v) ltac:(lia) (or_introl R)) as [_ R2].
    destruct (kept_as_saved 14 (std v) ltac:(lia) S) as [_ S2]. unfold kept in V2, R2. rewrite V1 in V2. rewrite R1 in R2. rewrite V2, R2, S2. reflexivity.
Qed.
Print Assumptions C69_digits_partial.

(** Numbers with at most 14 digits: 0, 0.1, -12345.678, 1.5e-300; numbers with more digits: 1/3, -2/3. *)
Lemma ex_decimal p m k : 0 < m < 10 ^ p -> -306 <= k <= 306 - p -> exact p (d_decimal m k).
Proof.
  intros M K. split; [|right; left; exists m, k; split; [exact M|split; [exact K|reflexivity]]].
  destruct (Z.lt_ge_cases p 1) as [C|C]; [exfalso; destruct (Z.eq_dec p 0) as [-> |N]; [cbn in M; lia|rewrite Z.pow_neg_r in M by lia; lia]|].
  destruct (decimal_finite m k ltac:(lia) (small_ranged p m k ltac:(lia) M K)) as (mx & ex & -> & _). reflexivity.
Qed.
Lemma ex_minus : exact 14 (SFopp (d_decimal 12345678 (-3))).
Proof. split; [vm_compute; reflexivity|]. right. right. exists (d_decimal 12345678 (-3)). split; [|reflexivity]. exists 12345678, (-3). repeat split; vm_compute; congruence. Qed.
Ltac is_common := split; [exact I|split; [vm_compute; reflexivity|split; [vm_compute; discriminate|split; [vm_compute; reflexivity|vm_compute; intros; congruence]]]].
Definition third : dbl := d_div (d_ofZ 1) (d_ofZ 3).
Definition ex_scl : list (str * scalar) :=
  [(S2L "a", mkScl (d_decimal 1 (-1)) (d_decimal 1 0) d_na);
   (S2L "b", mkScl (SFopp (d_decimal 12345678 (-3))) (S754_zero false) (d_decimal 15 (-301)))].
Example C69_scalars_ex : database SCALARS ex_scl /\ no_sharp ex_scl /\
  Forall (fun v => exact 14 (value v) /\ exact 14 (relax v) /\ (std v = d_na \/ exact 14 (std v))) (map snd ex_scl) /\
  save_scalars ex_scl = S2L "a 0.1 1 na " ++ LF :: S2L "b -12345.678 0 1.5e-300 " ++ [LF].
Proof.
  split; [is_database|]. split; [is_no_sharp|]. split; [|vm_compute; reflexivity]. cbn [ex_scl map snd].
  constructor; [|constructor; [|constructor]]; cbn [value relax std].
  - split; [apply ex_decimal; lia|]. split; [apply ex_decimal; lia|left; reflexivity].
  - split; [exact ex_minus|]. split; [split; [reflexivity|left; reflexivity]|right; apply ex_decimal; lia].
Qed.
Definition ex_scl2 : list (str * scalar) := [(S2L "a", mkScl third (S754_zero false) d_na); (S2L "b", mkScl (SFopp third) (d_ofZ 1) (d_div third (d_ofZ 7)))].
Example C69_digits_ex : database SCALARS ex_scl2 /\ no_sharp ex_scl2 /\
  Forall (fun v => measured (value v) /\ measured (relax v) /\ (measured (std v) \/ missing (std v))) (map snd ex_scl2) /\
  save_scalars ex_scl2 = S2L "a 0.33333333333333 0 na " ++ LF :: S2L "b -0.33333333333333 1 0.047619047619048 " ++ [LF].
Proof.
  split; [is_database|]. split; [is_no_sharp|]. split; [|vm_compute; reflexivity]. cbn [ex_scl2 map snd].
  constructor; [|constructor; [|constructor]]; cbn [value relax std].
  - split; [right; is_common|]. split; [left; reflexivity|right; reflexivity].
  - split; [right; is_common|]. split; [right; is_common|left; right; is_common].
Qed.

(** A value NA is read as 0.9, a relaxation coefficient NA as 1. *)
Theorem C69_value_na_refuted : exists db, database SCALARS db /\ no_sharp db /\
  (exists v, db = [(S2L "a", v)] /\ value v = d_na) /\
  exists w, load_scalars (save_scalars db) = Done (true, [(S2L "a", w)]) /\ value w = d_dec 9 1.
Proof.
  exists [(S2L "a", mkScl d_na (d_dec 5 1) d_na)]. split; [is_database|]. split; [is_no_sharp|]. split; [eexists; split; reflexivity|].
  eexists. split; vm_compute; reflexivity.
Qed.
Print Assumptions C69_value_na_refuted.
Theorem C69_relax_na_refuted : exists db, database SCALARS db /\ no_sharp db /\
  (exists v, db = [(S2L "a", v)] /\ relax v = d_na) /\
  exists w, load_scalars (save_scalars db) = Done (true, [(S2L "a", w)]) /\ relax w = d_ofZ 1.
Proof.
  exists [(S2L "a", mkScl (d_dec 5 1) d_na d_na)]. split; [is_database|]. split; [is_no_sharp|]. split; [eexists; split; reflexivity|].
  eexists. split; vm_compute; reflexivity.
Qed.
Print Assumptions C69_relax_na_refuted.
(** The sum of 0.1 and 0.2 is read as 0.3. *)
Theorem C69_precision_refuted : exists db, database SCALARS db /\ no_sharp db /\
  (exists v, db = [(S2L "a", v)] /\ common (value v)) /\
  exists w, load_scalars (save_scalars db) = Done (true, [(S2L "a", w)]) /\ SFeqb (value w) (d_add (d_dec 1 1) (d_dec 2 1)) = false /\
    SFeqb (value w) (d_dec 3 1) = true /\ db = [(S2L "a", mkScl (d_add (d_dec 1 1) (d_dec 2 1)) (d_ofZ 1) d_na)].
Proof.
  exists [(S2L "a", mkScl (d_add (d_dec 1 1) (d_dec 2 1)) (d_ofZ 1) d_na)]. split; [is_database|]. split; [is_no_sharp|]. split.
  - eexists. split; [reflexivity|]. cbn [value].
    replace (d_add (d_dec 1 1) (d_dec 2 1)) with (S754_finite false 5404319552844596 (-54)) by (vm_compute; reflexivity).
    split; [exact I|]. split; [vm_compute; reflexivity|]. split; [vm_compute; discriminate|]. split; [vm_compute; reflexivity|]. intros E. discriminate E.
  - eexists. split; [vm_compute; reflexivity|]. split; [vm_compute; reflexivity|]. split; vm_compute; reflexivity.
Qed.
Print Assumptions C69_precision_refuted.
(** An infinite value makes a scalar named inf. *)
Theorem C69_infinite_refuted : exists db, database SCALARS db /\ no_sharp db /\ length db = 1%nat /\ ~ In (S2L "inf") (map fst db) /\
  exists db', load_scalars (save_scalars db) = Done (true, db') /\ In (S2L "inf") (map fst db') /\ length db' = 2%nat.
Proof.
  exists [(S2L "a", mkScl (S754_infinity false) (d_dec 5 1) (d_ofZ 2))]. split; [is_database|]. split; [is_no_sharp|].
  split; [reflexivity|]. split; [not_in|]. eexists. split; [vm_compute; reflexivity|]. split; [is_in|reflexivity].
Qed.
Print Assumptions C69_infinite_refuted.
(** -0 is read as 0. *)
Theorem C69_minus_zero_refuted : exists db, database SCALARS db /\ no_sharp db /\
  db = [(S2L "a", mkScl (S754_zero true) (d_ofZ 1) d_na)] /\
  load_scalars (save_scalars db) = Done (true, [(S2L "a", mkScl (S754_zero false) (d_ofZ 1) d_na)]).
Proof. eexists. split; [|split; [|split; [reflexivity|vm_compute; reflexivity]]]; [is_database|is_no_sharp]. Qed.
Print Assumptions C69_minus_zero_refuted.

(** * C70: variables *)
(** Full statement: the variables are saved and loaded without loss. It is false (see the theorems that follow); it holds
    for samples between the years 1000 and 9999, names that are not keywords, and values that are NA or have at most 15
    digits. *)
Definition of_length (s : sample) (v : list dbl) : Prop := Z.of_nat (length v) = s_nb s.
Definition years_ok (s : sample) : Prop := 1000 <= year (s_start s) <= 9999 /\ 1000 <= year (s_end s) <= 9999.
Definition no_keyword {V} (db : list (str * V)) : Prop := forall n, In n (map fst db) -> ~ In n TABLE.
Theorem C70_variables_partial : forall s db, sample_ok s -> years_ok s -> database VARIABLES db -> no_sharp db -> no_keyword db ->
  Forall (fun v => of_length s v /\ Forall (fun x => x = d_na \/ exact 15 x) v) (map snd db) ->
  save_variables (mkVdb (Some s) db) = (true, save_vars s db) /\
  load_variables (save_vars s db) = Done (true, mkVdb (Some s) db).
Proof.
  intros s db SO [Y1 Y2] D N K P. split; [reflexivity|].
  assert (X : forall x, x = d_na \/ exact 15 x -> writable 15 x /\ kept 15 x = x).
  { intros x [-> |E]; [apply missing_writable; reflexivity|]. destruct (exact_writable 15 x ltac:(lia) E) as [W S]. split; [exact W|].
    unfold kept. rewrite S. destruct E as [-> _]. reflexivity. }
  rewrite (load_variables_ok s db D N K SO Y1 Y2).
  - do 3 f_equal. clear D N K. induction db as [|[n v] db IH]; [reflexivity|]. cbn [map fst snd] in *. inversion P as [|? ? [_ Pv] Pl]; subst.
    rewrite IH by exact Pl. do 2 f_equal. clear -Pv X. induction Pv as [|x v Px Pv IH]; [reflexivity|]. cbn [map]. rewrite IH, (proj2 (X x Px)). reflexivity.
  - eapply Forall_impl; [|exact P]. intros v [L Pv]. split; [exact L|]. eapply Forall_impl; [|exact Pv]. intros x Px. apply X. exact Px.
Qed.
Print Assumptions C70_variables_partial.
(** Otherwise the values are read with 15 digits; saving them again gives the same file. *)
Theorem C70_digits_partial : forall s db, sample_ok s -> years_ok s -> database VARIABLES db -> no_sharp db -> no_keyword db ->
  Forall (fun v => of_length s v /\ Forall (fun x => measured x \/ missing x) v) (map snd db) ->
  exists db', load_variables (save_vars s db) = Done (true, mkVdb (Some s) db') /\ map fst db' = map fst db /\
    Forall2 (Forall2 (as_saved 15)) (map snd db) (map snd db') /\ save_vars s db' = save_vars s db.
Proof.
  intros s db SO [Y1 Y2] D N K P. exists (map (fun x => (fst x, map (kept 15) (snd x))) db). split; [|split; [|split]].
  - apply load_variables_ok; try assumption. eapply Forall_impl; [|exact P]. intros v [L Pv]. split; [exact L|]. eapply Forall_impl; [|exact Pv].
    intros x [M|M]; [apply measured_writable; [lia|exact M]|apply missing_writable; exact M].
  - rewrite map_map. reflexivity.
  - rewrite map_map. clear D N K. induction db as [|[n v] db IH]; cbn [map fst snd] in *; [constructor|]. inversion P as [|? ? [_ Pv] Pl]; subst.
    constructor; [|apply IH; exact Pl]. clear -Pv. induction Pv as [|x v Px Pv IH]; cbn [map]; constructor; [apply kept_as_saved; [lia|exact Px]|exact IH].
  - unfold save_vars. do 2 f_equal. do 2 f_equal. f_equal. rewrite flat_map_concat_map, map_map, <- flat_map_concat_map. clear D N K.
    induction db as [|[n v] db IH]; cbn [map fst snd flat_map] in *; [reflexivity|]. inversion P as [|? ? [_ Pv] Pl]; subst.
    rewrite IH by exact Pl. f_equal. do 2 f_equal. f_equal. clear -Pv. induction Pv as [|x v Px Pv IH]; [reflexivity|]. cbn [map flat_map].
    rewrite IH. f_equal. apply kept_as_saved; [lia|exact Px].
Qed.
Print Assumptions C70_digits_partial.

Definition smp3 : sample := mkS (mkP 2000 1 "Y") (mkP 2002 1 "Y") 3.
Lemma smp3_ok : sample_ok smp3 /\ years_ok smp3.
Proof.
  split; [|split; cbn; lia]. exists 2%nat. split; [reflexivity|]. split; [exists 1; split; [constructor|cbn; lia]|]. split; [exists 1; split; [constructor|cbn; lia]|].
  split; [|reflexivity]. eapply steps_ex with (nb := 1); [constructor|exists 1; split; [constructor|cbn; lia]|exists 1; split; [constructor|cbn; lia]|reflexivity|reflexivity].
Qed.
Definition ex_var : list (str * list dbl) := [(S2L "A", [d_decimal 1 (-1); d_na; SFopp (d_decimal 12345678 (-3))]); (S2L "B_1", [S754_zero false; d_decimal 7 20; d_na])].
Example C70_variables_ex : sample_ok smp3 /\ years_ok smp3 /\ database VARIABLES ex_var /\ no_sharp ex_var /\ no_keyword ex_var /\
  Forall (fun v => of_length smp3 v /\ Forall (fun x => x = d_na \/ exact 15 x) v) (map snd ex_var) /\
  save_vars smp3 ex_var = S2L "sample 2000Y1 2002Y1" ++ LF :: S2L "A 0.1 na -12345.678 " ++ LF :: S2L "B_1 0 7e+20 na " ++ [LF].
Proof.
  split; [apply smp3_ok|]. split; [apply smp3_ok|]. split; [is_database|]. split; [is_no_sharp|]. split.
  { intros n H. vm_compute in H. destruct H as [<- |[<- |[]]]; not_in. }
  split; [|vm_compute; reflexivity]. cbn [ex_var map snd]. constructor; [|constructor; [|constructor]]; (split; [reflexivity|]).
  - constructor; [right; apply ex_decimal; lia|]. constructor; [left; reflexivity|]. constructor; [|constructor]. right.
    split; [vm_compute; reflexivity|]. right. right. exists (d_decimal 12345678 (-3)). split; [|reflexivity]. exists 12345678, (-3). repeat split; vm_compute; congruence.
  - constructor; [right; split; [reflexivity|left; reflexivity]|]. constructor; [right; apply ex_decimal; lia|]. constructor; [left; reflexivity|constructor].
Qed.
Definition ex_var2 : list (str * list dbl) := [(S2L "A", [third; d_na; SFopp third])].
Example C70_digits_ex : database VARIABLES ex_var2 /\ no_sharp ex_var2 /\ no_keyword ex_var2 /\
  Forall (fun v => of_length smp3 v /\ Forall (fun x => measured x \/ missing x) v) (map snd ex_var2).
Proof.
  split; [is_database|]. split; [is_no_sharp|]. split.
  { intros n H. vm_compute in H. destruct H as [<- |[]]; not_in. }
  constructor; [|constructor]. split; [reflexivity|]. cbn [snd]. constructor; [left; right; is_common|]. constructor; [right; reflexivity|].
  constructor; [left; right; is_common|constructor].
Qed.

(** A variable whose name is a keyword of the tables is lost without a message. *)
Theorem C70_keyword_refuted : exists s db, sample_ok s /\ years_ok s /\ database VARIABLES db /\ no_sharp db /\
  Forall (fun v => of_length s v /\ Forall (fun x => x = d_na \/ exact 15 x) v) (map snd db) /\
  In (S2L "DATE") (map fst db) /\
  exists db', load_variables (save_vars s db) = Done (true, mkVdb (Some s) db') /\ ~ In (S2L "DATE") (map fst db').
Proof.
  exists smp3, [(S2L "A", [d_ofZ 1; d_na; d_ofZ 3]); (S2L "DATE", [d_ofZ 4; d_ofZ 5; d_na])].
  split; [apply smp3_ok|]. split; [apply smp3_ok|]. split; [is_database|]. split; [is_no_sharp|]. split.
  - assert (E : forall z, 0 < z < 10 -> exact 15 (d_ofZ z)).
    { intros z Z. split; [|right; left; exists z, 0; split; [change (10 ^ 15) with 1000000000000000; lia|split; [lia|]]].
      - assert (C : z = 1 \/ z = 2 \/ z = 3 \/ z = 4 \/ z = 5 \/ z = 6 \/ z = 7 \/ z = 8 \/ z = 9) by lia.
        repeat (destruct C as [-> |C]; [reflexivity|]). subst z. reflexivity.
      - symmetry. apply decimal_ofZ. lia. }
    cbn [map snd]. constructor; [split; [reflexivity|]|constructor; [split; [reflexivity|]|constructor]];
      repeat (constructor; [first [left; reflexivity|right; apply E; lia]|]); constructor.
  - split; [is_in|]. eexists. split; [vm_compute; reflexivity|]. not_in.
Qed.
Print Assumptions C70_keyword_refuted.
(** A sample before the year 1000 cannot be read: an exception leaves the function. *)
Theorem C70_year_refuted : exists s db, sample_ok s /\ database VARIABLES db /\ no_sharp db /\ no_keyword db /\ load_variables (save_vars s db) = Thrown.
Proof.
  exists (mkS (mkP 900 1 "Y") (mkP 902 1 "Y") 3), [(S2L "A", [d_ofZ 1; d_ofZ 2; d_ofZ 3])].
  split.
  { exists 2%nat. split; [reflexivity|]. split; [exists 1; split; [constructor|cbn; lia]|]. split; [exists 1; split; [constructor|cbn; lia]|].
    split; [|reflexivity]. eapply steps_ex with (nb := 1); [constructor|exists 1; split; [constructor|cbn; lia]|exists 1; split; [constructor|cbn; lia]|reflexivity|reflexivity]. }
  split; [is_database|]. split; [is_no_sharp|]. split; [|vm_compute; reflexivity].
  intros n H. vm_compute in H. destruct H as [<- |[]]. not_in.
Qed.
Print Assumptions C70_year_refuted.
(** An infinite value: the values that follow are lost and a variable INF is made. *)
Theorem C70_infinite_refuted : exists db, database VARIABLES db /\ no_sharp db /\ no_keyword db /\ length db = 1%nat /\
  load_variables (save_vars smp3 db) =
    Done (true, mkVdb (Some smp3) [(S2L "A", [d_ofZ 1; d_na; d_na]); (S2L "INF", [d_ofZ 3; d_na; d_na])]) /\
  db = [(S2L "A", [d_ofZ 1; S754_infinity false; d_ofZ 3])].
Proof.
  eexists. split; [|split; [|split; [|split; [|split; [|reflexivity]]]]]; [is_database|is_no_sharp| |reflexivity|vm_compute; reflexivity].
  intros n H. vm_compute in H. destruct H as [<- |[]]. not_in.
Qed.
Print Assumptions C70_infinite_refuted.
