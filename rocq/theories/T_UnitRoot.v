(** Property C103: the Dickey-Fuller test. *)
From Coq Require Import ZArith Ascii String List Bool Lia ZifyBool Floats.SpecFloat.
From Verif Require Import M_Base M_Report M_Time M_Names M_Lex M_Compile M_Bytes M_Exec M_Double M_Decimal M_Kdb M_Ascii M_AsciiEqs M_EstSave M_UnitRoot
  S_Report S_Time S_EstSave S_UnitRoot L_Names L_Kdb L_Time L_Decimal L_Report5 L_Lists L_EstSave T_EstSave.
Import ListNotations.
Open Scope Z_scope.

Lemma run_is l : (run_num l <= length l)%nat /\ (forall i, (i < run_num l)%nat -> d_num (nth i l d_na) = true) /\ (run_num l = length l \/ d_num (nth (run_num l) l d_na) = false).
Proof.
  induction l as [|a l (A & B & C)]; [split; [reflexivity|split; [intros i H; inversion H|left; reflexivity]]|]. cbn [run_num]. destruct (d_num a) eqn:E; cbn [length nth].
  - split; [lia|]. split; [intros [|i] H; [exact E|apply B; lia]|]. destruct C as [C|C]; [left; lia|right; exact C].
  - split; [lia|]. split; [intros i H; lia|right; exact E].
Qed.
Lemma first_run x : numbers_at x (first_num x) (run_num (skipn (first_num x) x)).
Proof.
  induction x as [|y x (A & B & C & D)]; [split; [reflexivity|split; [intros i H; inversion H|split; [intros i H; cbn in H; lia|left; reflexivity]]]|].
  cbn [first_num]. destruct (d_num y) eqn:E; unfold numbers_at.
  - cbn [skipn]. clear A B C D. destruct (run_is (y :: x)) as (A & B & C). split; [cbn [Nat.add]; exact A|]. split; [intros i H; lia|]. split; [intros i H; apply B; lia|].
    destruct C as [C|C]; [left; exact C|right; split; [cbn [run_num]; rewrite E; lia|exact C]].
  - cbn [skipn]. cbn [Nat.add]. cbn [length]. split; [lia|]. split; [intros [|i] H; [exact E|apply B; lia]|]. split; [intros [|i] H; [lia|apply C; lia]|]. destruct D as [D|[D1 D2]]; [left; lia|right; split; [exact D1|exact D2]].
Qed.
Lemma count_seq n : count n = map Z.of_nat (seq 1 n).
Proof. induction n as [|n IH]; [reflexivity|]. cbn [count]. rewrite IH, seq_S, map_app. reflexivity. Qed.
Lemma formula_is drift trend order : formula (Z.b2z drift) (Z.b2z trend) (Z.of_nat order) = tested drift trend order.
Proof.
  unfold formula, tested. rewrite Nat2Z.id, count_seq. rewrite flat_map_concat_map, map_map, <- flat_map_concat_map. destruct drift, trend; reflexivity.
Qed.
Lemma coefs_is drift trend order : coefs (Z.b2z drift) (Z.b2z trend) (Z.of_nat order) = coefficients drift trend order.
Proof. unfold coefs, coefficients. rewrite Nat2Z.id, count_seq, map_map. destruct drift, trend; reflexivity. Qed.
Lemma coefs_length drift trend order : Z.of_nat (length (coefficients drift trend order)) = Z.b2z drift + Z.b2z trend + Z.of_nat order + 1.
Proof. unfold coefficients. rewrite !app_length, map_length, seq_length. destruct drift, trend; cbn [length Z.b2z]; lia. Qed.
Lemma coef_d drift trend order n : In n (coefficients drift trend order) -> hd SP n = "d"%char.
Proof.
  unfold coefficients. rewrite !in_app_iff. intros [[<-|[]]|[H|[H|H]]]; [reflexivity| | |].
  - destruct drift; [destruct H as [<-|[]]; reflexivity|contradiction].
  - destruct trend; [destruct H as [<-|[]]; reflexivity|contradiction].
  - apply in_map_iff in H as (i & <- & _). reflexivity.
Qed.
Lemma dels_out names : forall (db : smap scalar) k, ~ In k names -> find k (fold_left (fun db n => del n db) names db) = find k db.
Proof.
  induction names as [|n l IH]; intros db k N; [reflexivity|]. cbn [fold_left]. rewrite IH by (intros I; apply N; right; exact I). apply find_del_neq. intros ->. apply N. left. reflexivity.
Qed.
Lemma sputs_out names x : forall (db : smap scalar) k, ~ In k names -> find k (fold_left (fun db n => put n x db) names db) = find k db.
Proof.
  induction names as [|n l IH]; intros db k N; [reflexivity|]. cbn [fold_left]. rewrite IH by (intros I; apply N; right; exact I). apply find_put_neq. intros ->. apply N. left. reflexivity.
Qed.
Lemma starts (v : sample) x : valid_period (s_start v) -> exists a b, shift (s_start v) (Z.of_nat (first_num x)) = Ok a /\ shift (s_start v) (Z.of_nat (first_num x + run_num (skipn (first_num x) x))) = Ok b /\
  difference b a = Ok (Z.of_nat (run_num (skipn (first_num x) x))) /\ valid_period a /\ difference b (s_start v) = Ok (Z.of_nat (first_num x + run_num (skipn (first_num x) x))).
Proof.
  intros V. destruct (shift_valid (s_start v) (Z.of_nat (first_num x)) V) as (a & A & VA & _ & _ & _). destruct (shift_valid (s_start v) (Z.of_nat (first_num x + run_num (skipn (first_num x) x))) V) as (b & B & _ & _ & _ & DB).
  exists a, b. split; [exact A|]. split; [exact B|]. split; [|split; [exact VA|exact DB]].
  pose proof (shift_compose (s_start v) (Z.of_nat (first_num x)) (Z.of_nat (run_num (skipn (first_num x) x))) V) as C. rewrite A in C. cbn [rbind] in C.
  replace (Z.of_nat (first_num x) + Z.of_nat (run_num (skipn (first_num x) x))) with (Z.of_nat (first_num x + run_num (skipn (first_num x) x))) in C by lia. rewrite B in C.
  destruct (shift_valid a (Z.of_nat (run_num (skipn (first_num x) x))) VA) as (b' & B' & _ & _ & _ & D). rewrite C in B'. injection B' as <-. exact D.
Qed.
Lemma sputs_sorted names x : forall (db : smap scalar), sorted db -> sorted (fold_left (fun db n => put n x db) names db).
Proof. induction names as [|n l IH]; intros db S; [exact S|]. cbn [fold_left]. apply IH, sorted_put, S. Qed.
Lemma sputs_in names x : forall (db : smap scalar) k, In k names -> find k (fold_left (fun db n => put n x db) names db) = Some x.
Proof.
  induction names as [|n l IH]; intros db k I; [contradiction|]. cbn [fold_left]. destruct (in_dec (list_eq_dec ascii_dec) k l) as [J|J]; [apply IH, J|].
  destruct I as [<-|I]; [|contradiction]. rewrite sputs_out by exact J. apply find_put_eq.
Qed.
Lemma dels_in names : forall (db : smap scalar) k, sorted db -> In k names -> find k (fold_left (fun db n => del n db) names db) = None.
Proof.
  induction names as [|n l IH]; intros db k S I; [contradiction|]. cbn [fold_left]. destruct (in_dec (list_eq_dec ascii_dec) k l) as [J|J]; [apply IH; [apply sorted_del, S|exact J]|].
  destruct I as [<-|I]; [|contradiction]. rewrite dels_out by exact J. apply find_del_eq, S.
Qed.
Lemma numbers_unique x a n b m : numbers_at x a n -> numbers_at x b m -> (0 < m)%nat -> a = b /\ n = m.
Proof.
  intros (A1 & A2 & A3 & A4) (B1 & B2 & B3 & B4) M.
  assert (a = b).
  { destruct (Nat.lt_trichotomy a b) as [L|[L|L]]; [|exact L|].
    - assert (0 < n)%nat by (destruct A4 as [A4|[A4 _]]; lia). specialize (B2 a L). rewrite (A3 a) in B2 by lia. discriminate.
    - specialize (A2 b L). rewrite (B3 b) in A2 by lia. discriminate. }
  subst b. split; [reflexivity|]. destruct (Nat.lt_trichotomy n m) as [L|[L|L]]; [|exact L|].
  - destruct A4 as [A4|[_ A4]]; [lia|]. rewrite (B3 (a + n)%nat) in A4 by lia. discriminate.
  - destruct B4 as [B4|[_ B4]]; [lia|]. rewrite (A3 (a + m)%nat) in B4 by lia. discriminate.
Qed.
(** The maps keep their order. *)
Definition ordered (w : world) : Prop := sorted (eqs w) /\ sorted (scls w).
Lemma put_eq_ordered n q w : ordered w -> ordered (put_eq n q w).
Proof. intros [A B]. split; [apply sorted_put, A|exact B]. Qed.
Lemma savescl_ordered x j a w : ordered w -> ordered (E_savescl x j a w).
Proof. intros [A B]. split; [exact A|apply sorted_put, B]. Qed.
Lemma tests2scl_ordered t j n k w : ordered w -> ordered (E_tests2scl t j n k w).
Proof.
  intros H. unfold E_tests2scl. assert (G : forall l w, ordered w -> ordered (fold_left (fun w x => E_savescl (nth (snd x) t d_na) j (fst x) w) l w)).
  { induction l as [|y l IH]; intros w0 W; [exact W|]. cbn [fold_left]. apply IH, savescl_ordered, W. }
  apply G, savescl_ordered, savescl_ordered, H.
Qed.
Lemma savevar_ordered n j row f nb t w w' : ordered w -> E_savevar n j row f nb t w = Ok w' -> ordered w'.
Proof. intros H E. unfold E_savevar in E. destruct (_ || _); [discriminate|]. injection E as <-. exact H. Qed.
Lemma update_ordered day n f m s t w : ordered w -> ordered (KE_update day n f m s t w).
Proof. intros H. unfold KE_update. destruct (in_scope w n); [destruct (find (ukey n) (eqs w))|]; exact (put_eq_ordered _ _ _ H). Qed.
Lemma save_ordered day rest l m s r f nb : forall j w w', ordered w -> save_all day rest j l m s r f nb w = Ok w' -> ordered w'.
Proof.
  induction l as [|[n g] l IH]; intros j w w' H E; cbn [save_all] in E; [injection E as <-; exact H|].
  destruct (nth_error (r_tests r) j); [|discriminate]. destruct (nth_error (r_calc r) j); [|discriminate]. destruct (nth_error (r_obs r) j); [|discriminate]. destruct (nth_error (r_res r) j); [|discriminate].
  cbv zeta in E. destruct (E_savevar (S2L "_YCALC") _ _ _ _ _ _) as [w2| |] eqn:E2; try discriminate. cbn [rbind] in E. destruct (E_savevar (S2L "_YOBS") _ _ _ _ _ _) as [w3| |] eqn:E3; try discriminate. cbn [rbind] in E.
  destruct (E_savevar (S2L "_YRES") _ _ _ _ _ _) as [w4| |] eqn:E4; try discriminate. cbn [rbind] in E. apply (IH _ _ _) in E; [exact E|].
  apply (savevar_ordered _ _ _ _ _ _ _ _ (savevar_ordered _ _ _ _ _ _ _ _ (savevar_ordered _ _ _ _ _ _ _ _ (tests2scl_ordered _ _ _ _ _ (update_ordered _ _ _ _ _ _ _ H)) E2) E3) E4).
Qed.
Definition keeps_order (est : Z -> sample -> list (str * str) -> list str -> smap scalar -> smap (list dbl) -> smap scalar * option results) : Prop :=
  forall m s l i sc va, sorted sc -> sorted (fst (est m s l i sc va)).
Lemma one_ordered est vs day rest s met n w b ns w' : keeps_order est -> ordered w -> est_one est vs day rest s met n w = Ok (b, ns, w') -> ordered w'.
Proof.
  intros K H E. unfold est_one in E. destruct (negb _); [injection E as _ _ <-; exact H|]. destruct (find (ukey n) (eqs w)) as [q|]; [|discriminate]. cbv zeta in E.
  set (w1 := put_eq n _ w) in E. assert (H1 : ordered w1) by (apply put_eq_ordered, H). clearbody w1. destruct (match s with Some s0 => Some s0 | None => sampl q end) as [s'|]; [|injection E as _ _ <-; exact H1].
  destruct (s_nb s' <? 1); [injection E as _ _ <-; exact H1|]. destruct (match vtoms _ (block q) with [] => _ | _ => _ end) as [l| |]; try discriminate. cbn [rbind] in E. destruct vs as [v|]; [|discriminate]. destruct (s_nb v =? 0); [discriminate|].
  destruct (difference _ _) as [f| |]; try discriminate. cbn [rbind] in E. pose proof (K (if met <? 0 then method q else met) s' l (vtoms (S2L ",;") (instr q)) (scls w1) (vars w1) (proj2 H1)) as KS.
  destruct (est _ _ _ _ _ _) as [sc [r|]]; cbn [fst] in KS.
  - destruct (save_all _ _ _ _ _ _ _ _ _ _) as [w3| |] eqn:S; try discriminate. cbn [rbind] in E. injection E as _ _ <-. apply save_ordered in S; [exact S|split; [exact (proj1 H1)|exact KS]].
  - injection E as _ _ <-. split; [exact (proj1 H1)|exact KS].
Qed.
Section Test.
Variable est : Z -> sample -> list (str * str) -> list str -> smap scalar -> smap (list dbl) -> smap scalar * option results.
Variables (v : sample) (day : Z) (rest : list dbl).
(** The estimation of the equation. *)
Lemma unit_1 s f w b w' : scope w = None -> 1 <= s_nb s -> E_UnitRoot_1 est v day rest s f w = Ok (b, w') ->
  exists sc o, est 0 s [(DF, f)] [] (scls w) (vars w) = (sc, o) /\ b = (match o with Some _ => true | None => false end) /\
  (forall k, k <> DF -> find k (eqs w') = find k (eqs w)) /\
  (forall k, (forall a, In a (map fst (scalar_values [] 0 0)) -> k <> scalar_at 0 a) -> find k (scls w') = find k sc) /\
  (forall k, (forall p, In p PREFIXES -> k <> variable_at p 0) -> find k (vars w') = find k (vars w)).
Proof.
  intros SC NB H. unfold E_UnitRoot_1 in H. set (q := mkEq f 0 None [] [] [] 0 no_tests) in *. set (w0 := put_eq DF q w) in *.
  assert (SC0 : scope w0 = None) by exact SC. assert (F0 : find (ukey DF) (eqs w0) = Some q) by (cbn [w0 eqs put_eq]; apply find_put_eq).
  destruct (estimate _ _ _ _ _ _ _ w0) as [[ok w1]| |] eqn:E; try discriminate. cbn [rbind] in H. injection H as <- <-.
  unfold estimate in E. change (5 <=? -1) with false in E. change (0 <=? -1) with false in E. cbv iota in E. cbn [est_loop existsb] in E.
  destruct (est_one _ _ _ _ _ _ DF w0) as [[[ok1 ns] w2]| |] eqn:O; try discriminate. cbn [rbind] in E.
  assert (OUT : forall k, k <> DF -> out_of (eqs w0) DF k).
  { intros k K q' F'. rewrite F0 in F'. injection F' as <-. split; [exact K|]. intros [I|[]]. apply K. symmetry. exact I. }
  destruct (one_any est (Some v) day rest s (-1) DF w0 ok1 ns w2 SC0 O) as (_ & _ & FR).
  assert (EQ : forall k, k <> DF -> find k (del DF (eqs w2)) = find k (eqs w)).
  { intros k K. rewrite find_del_neq by exact K. rewrite (FR k (OUT k K)). cbn [w0 eqs put_eq]. apply find_put_neq, K. }
  destruct ok1.
  - injection E as <- <-. destruct (one_ok est (Some v) day rest s (-1) DF w0 ns w2 SC0 O) as (q' & sc & r & from & v' & F & V & D & _ & EE & _ & K & XT & _).
    rewrite F0 in F. injection F as <-. change (members (eqs w0) DF q) with [(DF, f)] in *. change (instruments q) with (@nil str) in EE. change (if -1 <? 0 then method q else -1) with 0 in *.
    exists sc, (Some r). split; [exact EE|]. split; [reflexivity|]. cbn [eqs scls vars]. split; [exact EQ|]. split.
    + intros k N. rewrite (K_scl_out _ _ _ _ _ _ _ _ _ _ _ K k); [reflexivity|]. intros i a Hi Ha. cbn [length] in Hi. replace (0 + i)%nat with 0%nat by lia. exact (N a Ha).
    + intros k N. rewrite (K_var_out _ _ _ _ _ _ _ _ _ _ _ K k); [reflexivity|]. intros i p Hi Hp. cbn [length] in Hi. replace (0 + i)%nat with 0%nat by lia. exact (N p Hp).
  - injection E as <- <-. unfold est_one, in_scope in O. rewrite SC0, F0 in O. cbn [negb] in O. cbv zeta in O. replace (s_nb s <? 1) with false in O by lia. change (block q) with (@nil ascii) in O.
    change (vtoms (S2L " ,;") []) with (@nil str) in O. cbn [rbind] in O. destruct (s_nb v =? 0); [discriminate|]. destruct (difference (s_start s) (s_start v)) as [from| |]; try discriminate. cbn [rbind] in O.
    change (-1 <? 0) with true in O. cbv iota in O. change (method q) with 0 in O. change (lec q) with f in O. change (vtoms (S2L ",;") (instr q)) with (@nil str) in O. cbn [scls vars put_eq] in O. change (scls w0) with (scls w) in O. change (vars w0) with (vars w) in O.
    destruct (est 0 s [(DF, f)] [] (scls w) (vars w)) as [sc [r|]] eqn:EE.
    + destruct (save_all _ _ _ _ _ _ _ _ _ _); discriminate.
    + injection O as <- <-. exists sc, None. split; [reflexivity|]. split; [reflexivity|]. cbn [eqs scls vars]. split; [exact EQ|]. split; intros; reflexivity.
Qed.
End Test.

(** * The theorems *)
(** A test that gives a result: the equation is estimated on the numbers of the tested series that follow each other, after the lags;
    the result holds the value, the standard error and the t-test of each coefficient, in the order of the formula. *)
Theorem C103_result : forall est v day rest x drift trend order w l w', valid_period (s_start v) -> scope w = None ->
  E_UnitRoot est v day rest (Some x) (Z.b2z drift) (Z.b2z trend) (Z.of_nat order) w = Ok (Some l, w') ->
  exists a n s sc0 va sc r, numbers_at x a n /\ (2 * (length l) + 1 <= n)%nat /\
  difference (s_start s) (s_start v) = Ok (Z.of_nat (a + 1 + order)) /\ s_nb s = Z.of_nat (n - 1 - order) /\
  est 0 s [(S2L "_DF", tested drift trend order)] [] sc0 va = (sc, Some r) /\ M_Kdb.find (S2L "_DF") va = Some x /\
  (forall c, In c (coefficients drift trend order) -> M_Kdb.find c sc0 = Some (mkScl (scan (S2L "0.9")) (d_ofZ 1) d_na)) /\
  l = map (fun c => three (M_Kdb.find c sc)) (coefficients drift trend order).
Proof.
  intros est v day rest x drift trend order w l w' V SC H. unfold E_UnitRoot in H. cbv zeta in H. destruct (starts v x V) as (a & b & A & B & D & VA & DB). pose proof (first_run x) as NA.
  rewrite A, B in H. cbn [rbind] in H. rewrite D in H. cbn [rbind] in H. set (t0 := first_num x) in *. set (n := run_num (skipn t0 x)) in *. rewrite formula_is, coefs_is in H.
  destruct (shift_valid a 1 VA) as (a1 & A1 & VA1 & _). rewrite A1 in H. cbn [rbind] in H. destruct (Z.of_nat n - 1 <? _) eqn:SM; [discriminate|]. destruct (1023 <? _); [discriminate|].
  destruct (shift_valid a1 (Z.of_nat order) VA1) as (a2 & A2 & VA2 & _). rewrite A2 in H. cbn [rbind] in H.
  destruct (E_UnitRoot_1 _ _ _ _ _ _ _) as [[ok w1]| |] eqn:U; try discriminate. cbn [rbind] in H. destruct ok; [|discriminate]. destruct (_ <? Z.of_nat (length (coefficients drift trend order))) eqn:CP; [discriminate|]. assert (HL : l = map (E_SclToReal (scls w1)) (coefficients drift trend order)) by congruence. clear H. subst l.
  apply unit_1 in U; [|exact SC|cbn [s_nb]; destruct drift, trend; cbn [Z.b2z] in SM; lia]. destruct U as (sc & o & EE & OB & _ & SO & _). destruct o as [r|]; [|discriminate].
  eexists t0, n, _, _, _, sc, r. split; [exact NA|]. split; [rewrite map_length; pose proof (coefs_length drift trend order); lia|].
  split; [|split; [|split; [exact EE|]]].
  - cbn [s_start]. pose proof (shift_compose a 1 (Z.of_nat order) VA) as C1. rewrite A1 in C1. cbn [rbind] in C1. rewrite A2 in C1. pose proof (shift_compose (s_start v) (Z.of_nat t0) (1 + Z.of_nat order) V) as C2. rewrite A in C2. cbn [rbind] in C2. rewrite <- C1 in C2.
    destruct (shift_valid (s_start v) (Z.of_nat t0 + (1 + Z.of_nat order)) V) as (z & Z1 & _ & _ & _ & Z2). rewrite <- C2 in Z1. injection Z1 as <-. rewrite Z2. f_equal. lia.
  - cbn [s_nb]. destruct drift, trend; cbn [Z.b2z] in SM; lia.
  - split; [cbn [vars]; change (S2L "_DF") with DF; apply find_put_eq|]. split; [intros c C; apply sputs_in, C|]. apply map_ext_in. intros c C. unfold E_SclToReal, three, almost_zero, IODE_IS_0, tiny36. rewrite SO; [reflexivity|].
    intros y0 _ E. pose proof (coef_d _ _ _ _ C) as HD. rewrite E in HD. discriminate HD.
Qed.
(** Every value of the series that the estimation looks at is a number. *)
Theorem C103_lags : forall x a n order, numbers_at x a n -> forall t j, (a + 1 + order <= t < a + n)%nat -> (j <= order + 1)%nat -> d_num (nth (t - j) x d_na) = true.
Proof. intros x a n order (_ & _ & N & _) t j T J. apply N. lia. Qed.
(** Whatever the outcome: the other equations and series are unchanged; the other scalars are those the estimation leaves. *)
Theorem C103_frame : forall est v day rest vec drift trend order w o w', valid_period (s_start v) -> scope w = None ->
  E_UnitRoot est v day rest vec (Z.b2z drift) (Z.b2z trend) (Z.of_nat order) w = Ok (o, w') ->
  (forall k, k <> S2L "_DF" -> M_Kdb.find k (eqs w') = M_Kdb.find k (eqs w)) /\
  (forall k, ~ In k (map S2L ["_DF"; "_YCALC0"; "_YOBS0"; "_YRES0"]%string) -> M_Kdb.find k (vars w') = M_Kdb.find k (vars w)) /\
  ((exists m s l i sc0 va sc r, est m s l i sc0 va = (sc, r) /\ forall k, ~ In k (coefficients drift trend order) ->
    M_Kdb.find k sc0 = M_Kdb.find k (scls w) /\ ((forall a, In a (map fst (scalar_values [] 0 0)) -> k <> scalar_at 0 a) -> M_Kdb.find k (scls w') = M_Kdb.find k sc)) \/
   scls w' = scls w).
Proof.
  intros est v day rest vec drift trend order w o w' V SC H. unfold E_UnitRoot in H. destruct vec as [x|]; [|injection H as _ <-; repeat split; right; reflexivity]. cbv zeta in H.
  destruct (starts v x V) as (a & b & A & B & D & VA & DB). rewrite A, B in H. cbn [rbind] in H. rewrite D in H. cbn [rbind] in H. rewrite formula_is, coefs_is in H.
  destruct (shift_valid a 1 VA) as (a1 & A1 & VA1 & _). rewrite A1 in H. cbn [rbind] in H. destruct (_ <? (_ + _ + _ + 1) * 2) eqn:SM.
  { injection H as _ <-. cbn [eqs vars scls]. split; [reflexivity|]. split; [|right; reflexivity]. intros k N. assert (k <> DF) by (intros ->; apply N; left; reflexivity).
    rewrite find_del_neq, find_put_neq by assumption. reflexivity. }
  destruct (1023 <? _); [discriminate|]. destruct (shift_valid a1 (Z.of_nat order) VA1) as (a2 & A2 & VA2 & _). rewrite A2 in H. cbn [rbind] in H.
  destruct (E_UnitRoot_1 _ _ _ _ _ _ _) as [[ok w1]| |] eqn:U; try discriminate. cbn [rbind] in H.
  assert (EW : w' = mkW (eqs w1) (scope w1) (fold_left (fun db n => del n db) (coefficients drift trend order) (scls w1)) (vars w1)).
  { destruct ok; [destruct (_ <? _) in H; [discriminate|]|]; injection H as _ <-; reflexivity. }
  clear H. subst w'. apply unit_1 in U; [|exact SC|cbn [s_nb]; destruct drift, trend; cbn [Z.b2z] in SM; lia]. destruct U as (sc & o' & EE & _ & UE & US & UV). cbn [eqs vars scls] in *.
  split; [intros k K; exact (UE k K)|]. split.
  - intros k N. rewrite UV.
    + apply find_put_neq. intros ->. apply N. left. reflexivity.
    + intros p P ->. apply N. cbn [In] in P |- *. destruct P as [<-|[<-|[<-|[]]]]; right; [left|right; left|right; right; left]; reflexivity.
  - left. do 8 eexists. split; [exact EE|]. intros k N. split; [apply sputs_out, N|]. intros M. rewrite dels_out by exact N. apply US, M.
Qed.
(** After an estimation, failed or not: the tested series stays under the name _DF; the equation _DF and the scalars of the same names as the coefficients are gone. *)
Theorem C103_leftovers : forall est v day rest x drift trend order w o w' a n, keeps_order est -> sorted (eqs w) -> sorted (scls w) -> valid_period (s_start v) -> scope w = None ->
  numbers_at x a n -> (2 * length (coefficients drift trend order) + 1 <= n)%nat ->
  E_UnitRoot est v day rest (Some x) (Z.b2z drift) (Z.b2z trend) (Z.of_nat order) w = Ok (o, w') ->
  M_Kdb.find (S2L "_DF") (vars w') = Some x /\ M_Kdb.find (S2L "_DF") (eqs w') = None /\ (forall c, In c (coefficients drift trend order) -> M_Kdb.find c (scls w') = None).
Proof.
  intros est v day rest x drift trend order w o w' a0 n0 KO SE SS V SC NA0 LN H. unfold E_UnitRoot in H. cbv zeta in H. destruct (starts v x V) as (a & b & A & B & D & VA & DB). rewrite A, B in H. cbn [rbind] in H. rewrite D in H. cbn [rbind] in H. rewrite formula_is, coefs_is in H.
  destruct (numbers_unique _ _ _ _ _ (first_run x) NA0) as [_ E2]; [lia|]. rewrite E2 in H. pose proof (coefs_length drift trend order) as CL.
  destruct (shift_valid a 1 VA) as (a1 & A1 & VA1 & _). rewrite A1 in H. cbn [rbind] in H. destruct (_ <? (_ + _ + _ + 1) * 2) eqn:SM; [lia|].
  destruct (1023 <? _); [discriminate|]. destruct (shift_valid a1 (Z.of_nat order) VA1) as (a2 & A2 & VA2 & _). rewrite A2 in H. cbn [rbind] in H.
  destruct (E_UnitRoot_1 _ _ _ _ _ _ _) as [[ok w1]| |] eqn:U; try discriminate. cbn [rbind] in H.
  assert (EW : w' = mkW (eqs w1) (scope w1) (fold_left (fun db n => del n db) (coefficients drift trend order) (scls w1)) (vars w1)).
  { destruct ok; [destruct (_ <? _) in H; [discriminate|]|]; injection H as _ <-; reflexivity. }
  clear H. subst w'. assert (G : find DF (eqs w1) = None /\ sorted (scls w1)).
  { unfold E_UnitRoot_1, estimate in U. change (5 <=? -1) with false in U. change (0 <=? -1) with false in U. cbv iota in U. cbn [est_loop existsb] in U.
    destruct (est_one _ _ _ _ _ _ _ _) as [[[ok' ns] w2]| |] eqn:O; try discriminate. cbn [rbind] in U. apply one_ordered in O; [|exact KO|apply put_eq_ordered; split; [exact SE|cbn [scls]; apply sputs_sorted, SS]].
    destruct ok'; injection U as _ <-; cbn [eqs scls]; (split; [apply find_del_eq, O|apply O]). }
  destruct G as [G GS].
  apply unit_1 in U; [|exact SC|cbn [s_nb]; destruct drift, trend; cbn [Z.b2z] in SM; lia]. destruct U as (sc & o' & EE & _ & UE & US & UV). cbn [eqs vars scls] in *.
  split; [|split; [exact G|intros c C; apply dels_in; [exact GS|exact C]]]. rewrite UV; [change (S2L "_DF") with DF; apply find_put_eq|].
  intros p P. cbn [In] in P. destruct P as [<-|[<-|[<-|[]]]]; discriminate.
Qed.
(** * A case *)
Definition u_row (c : Z) : list dbl := repeat (d_ofZ c) 11.
(** An estimation that gives 2 to df_, with the standard error [e], and 4 to df1. *)
Definition u_est (e : dbl) (m : Z) (s : sample) (l : list (str * str)) (i : list str) (sc : smap scalar) (va : smap (list dbl)) : smap scalar * option results :=
  let y := repeat (d_ofZ 1) (Z.to_nat (s_nb s)) in
  (M_Kdb.put (S2L "df_") (mkScl (d_ofZ 2) (d_ofZ 1) e) (M_Kdb.put (S2L "df1") (mkScl (d_ofZ 4) (d_ofZ 1) (d_ofZ 2)) sc), Some (mkR [u_row 5] 1 [y] [y] [y])).
Definition u_rest : list dbl := repeat (d_ofZ 3) 9.
Definition u_v : sample := mkS (y 2000) (y 2009) 10.
Definition u_x : list dbl := d_na :: map d_ofZ [1; 2; 3; 4; 5; 6; 7; 8] ++ [d_na].
Definition u_w : world :=
  mkW (M_Kdb.put (S2L "_DF") (mkEq (S2L "_DF := 1") 0 None [] [] [] 0 no_tests) []) None (M_Kdb.put (S2L "df1") (mkScl (d_ofZ 7) (d_ofZ 1) d_na) []) (M_Kdb.put (S2L "_DF") (repeat (d_ofZ 9) 10) []).
Definition u_out {A} (r : res (A * world)) : option A := match r with Ok (o, _) => Some o | _ => None end.
Definition u_after {A} (r : res (A * world)) : option world := match r with Ok (_, w) => Some w | _ => None end.
Example C103_case : valid_period (s_start u_v) /\ numbers_at u_x 1 8 /\
  u_out (E_UnitRoot (u_est (d_ofZ 1)) u_v 20260101 u_rest (Some u_x) 0 0 1 u_w) = Some (Some [(Some (d_ofZ 2), Some (d_ofZ 1), Some (d_ofZ 2)); (Some (d_ofZ 4), Some (d_ofZ 2), Some (d_ofZ 2))]) /\
  tested true false 1 = S2L "d(_DF) := df_ * _DF[-1]+ df_d + df1*d(_DF[-1])".
Proof.
  split; [exists 1; split; [constructor|cbn; lia]|]. split; [|vm_compute; split; reflexivity]. split; [cbn; lia|]. split; [intros [|i] H; [reflexivity|lia]|]. split; [|right; split; [lia|reflexivity]].
  intros i [H1 H2]. do 9 (destruct i as [|i]; [first [lia|reflexivity]|]). lia.
Qed.
Example C103_leftovers_case : keeps_order (u_est (d_ofZ 1)) /\ sorted (eqs u_w) /\ sorted (scls u_w) /\ length (coefficients false false 1) = 2%nat.
Proof. split; [intros m s l i sc va S; cbn [u_est fst]; apply sorted_put, sorted_put, S|]. split; [apply sorted_put, sorted_nil|]. split; [apply sorted_put, sorted_nil|reflexivity]. Qed.
(** The test is not neutral: the equation _DF, the series _DF and the scalar df1 of the user are lost. *)
Theorem C103_neutral_refuted : exists w', u_after (E_UnitRoot (u_est (d_ofZ 1)) u_v 20260101 u_rest (Some u_x) 0 0 1 u_w) = Some w' /\
  M_Kdb.find (S2L "_DF") (vars u_w) = Some (repeat (d_ofZ 9) 10) /\ M_Kdb.find (S2L "_DF") (vars w') = Some u_x /\
  M_Kdb.find (S2L "_DF") (eqs u_w) <> None /\ M_Kdb.find (S2L "_DF") (eqs w') = None /\
  M_Kdb.find (S2L "df1") (scls u_w) <> None /\ M_Kdb.find (S2L "df1") (scls w') = None.
Proof. eexists. split; [vm_compute; reflexivity|]. vm_compute. repeat split; discriminate. Qed.
(** A standard error equal to zero: the t-test is not written. *)
Theorem C103_t_test_refuted : u_out (E_UnitRoot (u_est (d_ofZ 0)) u_v 20260101 u_rest (Some u_x) 0 0 0 u_w) = Some (Some [(Some (d_ofZ 2), Some (d_ofZ 0), None)]).
Proof. vm_compute. reflexivity. Qed.
(** A high order: the formula is written after the end of its buffer, whatever the estimation does. *)
Theorem C103_order_refuted : forall est day rest x drift trend w a n, numbers_at x a n -> (130 <= n)%nat -> E_UnitRoot est u_v day rest (Some x) (Z.b2z drift) (Z.b2z trend) 54 w = UB.
Proof.
  intros est day rest x drift trend w a0 n0 NA0 LN. assert (V : valid_period (s_start u_v)) by (exists 1; split; [constructor|cbn; lia]). unfold E_UnitRoot. cbv zeta. destruct (starts u_v x V) as (a & b & A & B & D & VA & DB). rewrite A, B. cbn [rbind]. rewrite D. cbn [rbind].
  destruct (numbers_unique _ _ _ _ _ (first_run x) NA0) as [_ E2]; [lia|]. rewrite E2. destruct (shift_valid a 1 VA) as (a1 & A1 & _). rewrite A1. cbn [rbind].
  replace (_ <? (_ + _ + _ + 1) * 2) with false by (destruct drift, trend; cbn [Z.b2z]; lia). replace (1023 <? _) with true; [reflexivity|]. destruct drift, trend; vm_compute; reflexivity.
Qed.
Example C103_order_case : numbers_at (repeat (d_ofZ 1) 130) 0 130.
Proof.
  split; [rewrite repeat_length; lia|]. split; [intros i H; lia|]. split; [|left; rewrite repeat_length; reflexivity]. intros i H. rewrite nth_indep with (d' := d_ofZ 1) by (rewrite repeat_length; lia). rewrite nth_repeat. reflexivity.
Qed.
(** A drift that is neither 0 nor 1, as the command may pass: the results are written after the end of their array. *)
Theorem C103_drift_refuted : E_UnitRoot (u_est (d_ofZ 1)) u_v 20260101 u_rest (Some u_x) (-1) 0 1 u_w = UB.
Proof. vm_compute. reflexivity. Qed.

Print Assumptions C103_result.
Print Assumptions C103_lags.
Print Assumptions C103_frame.
Print Assumptions C103_leftovers.
Print Assumptions C103_neutral_refuted.
Print Assumptions C103_t_test_refuted.
Print Assumptions C103_order_refuted.
Print Assumptions C103_drift_refuted.
