(** Property C98: the choice of the coefficients of an equation ($EqsStepWise). *)
From Coq Require Import ZArith Ascii String List Bool Lia Floats.SpecFloat.
From Verif Require Import M_Base M_Names M_Lex M_Double M_Decimal M_Kdb M_Ascii M_Step S_Step L_Names L_Kdb L_Step.
Import ListNotations.
Open Scope Z_scope.

Lemma get_scls objs db : all_exist objs db -> E_GetScls objs db = Ok (free_coefs objs db).
Proof.
  induction objs as [|n l IH]; intros A; [reflexivity|]. cbn [E_GetScls]. unfold free_coefs in *. cbn [filter]. unfold is_free at 1.
  destruct (is_coefficient n) eqn:C; cbn [andb].
  - destruct (M_Kdb.find n db) as [s|] eqn:F; [|destruct (A n (or_introl eq_refl) C F)]. rewrite IH by (intros m H; apply A; right; exact H). cbn [rbind].
    destruct (SFeqb (relax s) d0); reflexivity.
  - apply IH. intros m H. apply A. right. exact H.
Qed.
Lemma free_exist objs db n : In n (free_coefs objs db) -> M_Kdb.find n db <> None.
Proof. unfold free_coefs. intros H. apply filter_In in H as [_ H]. unfold is_free in H. apply andb_prop in H as [_ H]. destruct (M_Kdb.find n db); [discriminate|discriminate H]. Qed.
Lemma prepared_exists names c db : NoDup names -> short_names names -> length c = length names -> (forall n, In n names -> M_Kdb.find n db <> None) -> exists db', prepared names c db db'.
Proof.
  intros ND [S1 S2] L E. destruct (set_all_ok (number c) names 0 db 0 0 ND E ltac:(lia) ltac:(lia)) as (db' & _ & P). exists db'. rewrite <- L, bits_number in P. exact P.
Qed.

(** Full statement: the combination of coefficients with the best test, among those that verify the condition, is chosen. It is false
    (see the theorems that follow); it holds when a combination can be chosen, when each estimation gives the same result each time
    it is made and when there are not too many coefficients. The state returned is the one after the estimation of that combination. *)
Theorem C98_best_partial : forall X (est : scalars * X -> scalars * X) cond test objs (w : scalars * X) (Inv : scalars * X -> Prop) (score : list bool -> dbl) (ok : list bool -> bool),
  let names := free_coefs objs (fst w) in
  all_exist objs (fst w) -> NoDup objs -> short_names names ->
  Inv w -> repeatable est cond test names Inv score ok ->
  (exists c, eligible names score ok c) ->
  exists best w1 db', step_wise est cond test objs w = Ok (score best, est (db', snd w1)) /\
    Inv w1 /\ prepared names best (fst w1) db' /\ eligible names score ok best /\
    forall c, eligible names score ok c -> SFltb (score best) (score c) = false.
Proof.
  intros X est cond test objs w Inv score ok names A NDo SN I R [c0 E0]. assert (ND : NoDup names) by (apply NoDup_filter; exact NDo).
  unfold step_wise. rewrite (get_scls objs (fst w) A). fold names. cbn [rbind]. destruct SN as [S1 S2]. replace (30 <? length names)%nat with false by (symmetry; apply Nat.ltb_ge; exact S1).
  destruct (search_ok est cond test names ND (conj S1 S2) Inv score ok R (combinations (length names)) 0 (d_ofZ (-999999999999)) w I (or_intror eq_refl)) as (i & w1 & S & I1 & B & D).
  rewrite S. cbn [rbind].
  assert (El : eligible names score ok (bits i 0 (length names)) /\ forall c, eligible names score ok c -> SFltb (score (bits i 0 (length names))) (score c) = false).
  { assert (El : eligible names score ok (bits i 0 (length names))).
    { destruct D as [[_ D]|(_ & D & _)]; [|exact D]. exfalso. pose proof E0 as (L0 & C0 & _ & _ & T0). destruct (combination_of _ c0 L0 C0) as (j & Hj & Ej). specialize (D j Hj). rewrite Ej in D. rewrite (D E0) in T0. discriminate T0. }
    split; [exact El|]. intros c Ec. pose proof Ec as (Lc & Cc & _ & _ & Tc). destruct (combination_of _ c Lc Cc) as (j & Hj & Ej). specialize (B j Hj). rewrite Ej in B.
    destruct (B Ec) as [B1|(_ & _ & B1)]; [|exact B1]. rewrite B1 in Tc. discriminate Tc. }
  destruct El as [El Best]. destruct (step_ok est cond test names ND (conj S1 S2) Inv score ok R i w1 I1) as (db' & P & St). cbv zeta in St.
  pose proof El as (_ & C2 & _). replace (2 <=? chosen (bits i 0 (length names)))%nat with true in St by (symmetry; apply Nat.leb_le; exact C2).
  destruct St as (St & _). exists (bits i 0 (length names)), w1, db'. split; [exact St|]. split; [exact I1|]. split; [exact P|]. split; [exact El|exact Best].
Qed.
Print Assumptions C98_best_partial.
(** When no combination can be chosen, all the free coefficients end at 0 and fixed: their values are lost. *)
Theorem C98_none_refuted : forall X (est : scalars * X -> scalars * X) cond test objs (w : scalars * X) (Inv : scalars * X -> Prop) (score : list bool -> dbl) (ok : list bool -> bool),
  let names := free_coefs objs (fst w) in
  all_exist objs (fst w) -> NoDup objs -> short_names names ->
  Inv w -> repeatable est cond test names Inv score ok ->
  (forall c, ~ eligible names score ok c) ->
  exists w1 db', step_wise est cond test objs w = Ok (d0, (db', snd w1)) /\ Inv w1 /\ prepared names (repeat false (length names)) (fst w1) db'.
Proof.
  intros X est cond test objs w Inv score ok names A NDo SN I R No. assert (ND : NoDup names) by (apply NoDup_filter; exact NDo).
  unfold step_wise. rewrite (get_scls objs (fst w) A). fold names. cbn [rbind]. destruct SN as [S1 S2]. replace (30 <? length names)%nat with false by (symmetry; apply Nat.ltb_ge; exact S1).
  destruct (search_ok est cond test names ND (conj S1 S2) Inv score ok R (combinations (length names)) 0 (d_ofZ (-999999999999)) w I (or_intror eq_refl)) as (i & w1 & S & I1 & _ & D).
  rewrite S. cbn [rbind]. destruct D as [[-> _]|(_ & D & _)]; [|destruct (No _ D)].
  destruct (step_ok est cond test names ND (conj S1 S2) Inv score ok R 0 w1 I1) as (db' & P & St). cbv zeta in St.
  rewrite bits_zero, chosen_false in St. rewrite bits_zero in P. cbn in St. destruct St as (St & _). exists w1, db'. split; [exact St|]. split; [exact I1|exact P].
Qed.
Print Assumptions C98_none_refuted.
(** An equation with one free coefficient is never estimated; the coefficient is set to 0 and fixed. *)
Theorem C98_single_refuted : forall X (est : scalars * X -> scalars * X) cond test objs (w : scalars * X) n s,
  all_exist objs (fst w) -> free_coefs objs (fst w) = [n] -> (length n <= 20)%nat -> M_Kdb.find n (fst w) = Some s ->
  exists db, step_wise est cond test objs w = Ok (d0, (db, snd w)) /\ M_Kdb.find n db = Some (mkScl d0 d0 (std s)).
Proof.
  intros X est cond test objs w n s A F L E. unfold step_wise. rewrite (get_scls _ _ A), F. cbn [rbind].
  change (combinations (length [n])) with [1]. change (30 <? length [n])%nat with false. cbv iota. cbn [search]. unfold step_1.
  cbn [set_all]. change (30 <=? 0) with false. change (Z.testbit 1 0) with true. change (Z.testbit 0 0) with false. cbv iota. unfold E_SetScl. rewrite E. cbn [rbind].
  replace (511 <? 0 + Z.of_nat (length n) + 1) with false by lia. cbn [rbind fst snd]. change (1 <? 0 + 1) with false. change (1 <? 0) with false. cbv iota. cbn [rbind].
  rewrite andb_false_r. cbn [rbind set_all]. change (30 <=? 0) with false. change (Z.testbit 0 0) with false. cbv iota. cbn [fst snd]. rewrite find_put, str_eqb_refl. cbn [rbind].
  change (1 <? 0) with false. cbv iota. eexists. split; [reflexivity|]. rewrite find_put, str_eqb_refl. reflexivity.
Qed.
Print Assumptions C98_single_refuted.

(** An example: three coefficients, R2 is 0.8 for c1 c2, 0.9 for c1 c3, 0.7 for c2 c3, 0.95 for all; the condition refuses all. *)
Definition free_in (db : scalars) (n : str) : bool := match M_Kdb.find n db with Some s => negb (SFeqb (relax s) d0) | None => false end.
Definition ex_score (c : list bool) : dbl :=
  match c with [true; true; false] => d_dec 8 1 | [true; false; true] => d_dec 9 1 | [false; true; true] => d_dec 7 1 | _ => d_dec 95 2 end.
Definition ex_ok (c : list bool) : bool := negb (forallb (fun b => b) c).
Definition ex_free (w : scalars * unit) : list bool := map (free_in (fst w)) [S2L "c1"; S2L "c2"; S2L "c3"].
Definition ex_est (w : scalars * unit) : scalars * unit := (M_Kdb.put (S2L "e0_r2") (mkScl (ex_score (ex_free w)) d1 d_na) (fst w), tt).
Definition ex_cond (w : scalars * unit) : dbl := if ex_ok (ex_free w) then d1 else d0.
Definition ex_objs : list str := [S2L "Y"; S2L "c1"; S2L "c2"; S2L "X"; S2L "c3"; S2L "Z"].
Definition ex_w : scalars * unit := ([(S2L "c1", mkScl (d_dec 3 1) (d_dec 5 1) d_na); (S2L "c2", mkScl (d_dec 4 1) d1 d_na); (S2L "c3", mkScl d09 d1 d_na)], tt).
Definition ex_inv (w : scalars * unit) : Prop := forall n, In n [S2L "c1"; S2L "c2"; S2L "c3"] -> M_Kdb.find n (fst w) <> None.
Lemma ex_repeatable : repeatable ex_est ex_cond (S2L "r2") [S2L "c1"; S2L "c2"; S2L "c3"] ex_inv ex_score ex_ok.
Proof.
  split; [intros w I n H; exact (I n H)|]. intros w c db' I L P. destruct c as [|b1 [|b2 [|b3 [|]]]]; try discriminate L.
  assert (E : forall n, In n [S2L "c1"; S2L "c2"; S2L "c3"] -> exists s, M_Kdb.find n (fst w) = Some s).
  { intros n H. destruct (M_Kdb.find n (fst w)) as [s|] eqn:F; [exists s; reflexivity|destruct (I n H F)]. }
  destruct (E (S2L "c1") (or_introl eq_refl)) as [s1 F1]. destruct (E (S2L "c2") (or_intror (or_introl eq_refl))) as [s2 F2]. destruct (E (S2L "c3") (or_intror (or_intror (or_introl eq_refl)))) as [s3 F3].
  assert (P1 : M_Kdb.find (S2L "c1") db' = Some (if b1 then mkScl d09 d1 (std s1) else mkScl d0 d0 (std s1))) by (rewrite (P (S2L "c1")), F1; destruct b1; reflexivity).
  assert (P2 : M_Kdb.find (S2L "c2") db' = Some (if b2 then mkScl d09 d1 (std s2) else mkScl d0 d0 (std s2))) by (rewrite (P (S2L "c2")), F2; destruct b2; reflexivity).
  assert (P3 : M_Kdb.find (S2L "c3") db' = Some (if b3 then mkScl d09 d1 (std s3) else mkScl d0 d0 (std s3))) by (rewrite (P (S2L "c3")), F3; destruct b3; reflexivity).
  assert (Fr : forall k v, k <> S2L "e0_r2" -> M_Kdb.find k (M_Kdb.put (S2L "e0_r2") v db') = M_Kdb.find k db').
  { intros k v N. rewrite find_put. replace (str_eqb k (S2L "e0_r2")) with false by (symmetry; apply str_eqb_neq; exact N). reflexivity. }
  assert (Q : map (free_in db') [S2L "c1"; S2L "c2"; S2L "c3"] = [b1; b2; b3]).
  { cbn [map]. unfold free_in. rewrite P1, P2, P3. destruct b1, b2, b3; reflexivity. }
  assert (I' : ex_inv (db', snd w)).
  { intros n [<-|[<-|[<-|[]]]]; cbn [fst]; [rewrite P1; destruct b1|rewrite P2; destruct b2|rewrite P3; destruct b3]; discriminate. }
  split; [exact I'|]. intros _. cbv zeta. split; [|split].
  - intros n H. unfold ex_est. cbn [fst]. rewrite Fr; [apply I'; exact H|]. destruct H as [<-|[<-|[<-|[]]]]; discriminate.
  - eexists. split; [unfold ex_est; cbn [fst]; rewrite find_put; reflexivity|]. cbn [value]. unfold ex_free. cbn [fst]. rewrite Q. reflexivity.
  - unfold ex_cond, ex_free, ex_est. cbn [fst map]. unfold free_in. rewrite !Fr by discriminate. fold (free_in db' (S2L "c1")). fold (free_in db' (S2L "c2")). fold (free_in db' (S2L "c3")).
    change [free_in db' (S2L "c1"); free_in db' (S2L "c2"); free_in db' (S2L "c3")] with (map (free_in db') [S2L "c1"; S2L "c2"; S2L "c3"]). rewrite Q.
    destruct (ex_ok [b1; b2; b3]); reflexivity.
Qed.
Example C98_best_ex : all_exist ex_objs (fst ex_w) /\ NoDup ex_objs /\ free_coefs ex_objs (fst ex_w) = [S2L "c1"; S2L "c2"; S2L "c3"] /\
  short_names [S2L "c1"; S2L "c2"; S2L "c3"] /\ ex_inv ex_w /\ eligible [S2L "c1"; S2L "c2"; S2L "c3"] ex_score ex_ok [true; false; true] /\
  exists w, step_wise ex_est ex_cond (S2L "r2") ex_objs ex_w = Ok (d_dec 9 1, w) /\ M_Kdb.find (S2L "c2") (fst w) = Some (mkScl d0 d0 d_na).
Proof.
  split; [intros n H C; cbn in H; repeat (destruct H as [<-|H]; [try discriminate C; vm_compute; discriminate|]); destruct H|].
  split; [repeat (constructor; [cbn; intuition discriminate|]); constructor|]. split; [reflexivity|]. split; [split; vm_compute; [lia|discriminate]|].
  split; [intros n [<-|[<-|[<-|[]]]]; vm_compute; discriminate|]. split; [repeat split; vm_compute; lia|]. eexists. split; vm_compute; reflexivity.
Qed.
(** The condition never holds: c1 = 0.3, c2 = 0.4 and c3 = 0.9 become 0. *)
Example C98_none_ex : exists w, step_wise ex_est (fun _ => d0) (S2L "r2") ex_objs ex_w = Ok (d0, w) /\
  M_Kdb.find (S2L "c1") (fst w) = Some (mkScl d0 d0 d_na) /\ M_Kdb.find (S2L "c2") (fst w) = Some (mkScl d0 d0 d_na) /\ M_Kdb.find (S2L "c3") (fst w) = Some (mkScl d0 d0 d_na).
Proof. eexists. split; [vm_compute; reflexivity|]. repeat split. Qed.
Example C98_single_ex : let w := ([(S2L "c1", mkScl (d_dec 3 1) d1 d_na); (S2L "c2", mkScl (d_dec 4 1) d0 d_na)], tt) in let objs := [S2L "Y"; S2L "c1"; S2L "c2"] in
  all_exist objs (fst w) /\ free_coefs objs (fst w) = [S2L "c1"] /\ M_Kdb.find (S2L "c1") (fst w) = Some (mkScl (d_dec 3 1) d1 d_na).
Proof.
  cbv zeta. split; [intros n H C; cbn in H; repeat (destruct H as [<-|H]; [try discriminate C; vm_compute; discriminate|]); destruct H|]. split; reflexivity.
Qed.

(** The relaxation parameters given by the user are not those of the result: c1 had 0.5. *)
Theorem C98_relax_refuted : exists objs (w w' : scalars * unit) x n s s', M_Kdb.find n (fst w) = Some s /\ SFeqb (relax s) d0 = false /\
  step_wise ex_est ex_cond (S2L "r2") objs w = Ok (x, w') /\ M_Kdb.find n (fst w') = Some s' /\ SFeqb (relax s') d0 = false /\ SFeqb (relax s') (relax s) = false.
Proof. exists ex_objs, ex_w. do 2 eexists. exists (S2L "c1"). do 2 eexists. do 2 (split; [vm_compute; reflexivity|]). split; [vm_compute; reflexivity|]. split; [vm_compute; reflexivity|]. split; vm_compute; reflexivity. Qed.
Print Assumptions C98_relax_refuted.
(** When every estimation fails, the test left in the workspace by another equation is taken for the result. *)
Theorem C98_stale_refuted : forall X test objs (w : scalars * X) s, let names := free_coefs objs (fst w) in
  all_exist objs (fst w) -> NoDup objs -> short_names names -> (2 <= length names)%nat -> ~ In (S2L "e0_" ++ test) names ->
  M_Kdb.find (S2L "e0_" ++ test) (fst w) = Some s -> SFeqb (value s) d0 = false -> SFltb (d_ofZ (-999999999999)) (value s) = true ->
  exists w', step_wise (fun w => w) (fun _ => d1) test objs w = Ok (value s, w').
Proof.
  intros X test objs w s names A ND SN Two Out F NZ Big.
  destruct (C98_best_partial X (fun w => w) (fun _ => d1) test objs w
    (fun w' => (forall n, In n names -> M_Kdb.find n (fst w') <> None) /\ M_Kdb.find (S2L "e0_" ++ test) (fst w') = Some s) (fun _ => value s) (fun _ => true)) as (b & w1 & db' & H & _).
  - exact A.
  - exact ND.
  - exact SN.
  - split; [intros n H; apply (free_exist objs); exact H|exact F].
  - split; [intros w' [H _]; exact H|]. intros w' c db' [Ex Fe] Lc P. cbn [fst snd].
    assert (I : (forall n, In n names -> M_Kdb.find n db' <> None) /\ M_Kdb.find (S2L "e0_" ++ test) db' = Some s).
    { split.
      - intros n Hn. rewrite (P n). destruct (M_Kdb.find n (fst w')) as [v|] eqn:E; [|destruct (Ex n Hn E)]. match goal with |- context [List.find ?f ?l] => destruct (List.find f l) as [[? []]|] end; discriminate.
      - rewrite (P _), Fe. match goal with |- context [List.find ?f ?l] => replace (List.find f l) with (@None (str * bool)) by (symmetry; apply find_notin; exact Out) end. reflexivity. }
    split; [exact I|]. intros _. split; [exact I|]. split; [exists s; split; [apply I|reflexivity]|reflexivity].
  - exists (repeat true (length names)). split; [apply repeat_length|]. split; [|split; [reflexivity|split; assumption]].
    unfold chosen. replace (length (filter (fun b => b) (repeat true (length names)))) with (length names); [exact Two|]. clear. induction (length names) as [|k IH]; [reflexivity|]. cbn. f_equal. exact IH.
  - exists (db', snd w1). exact H.
Qed.
Print Assumptions C98_stale_refuted.
Example C98_stale_ex : let db := M_Kdb.put (S2L "e0_r2") (mkScl (d_dec 99 2) d1 d_na) (fst ex_w) in
  all_exist ex_objs db /\ free_coefs ex_objs db = [S2L "c1"; S2L "c2"; S2L "c3"] /\ M_Kdb.find (S2L "e0_" ++ S2L "r2") db = Some (mkScl (d_dec 99 2) d1 d_na) /\
  SFeqb (d_dec 99 2) d0 = false /\ SFltb (d_ofZ (-999999999999)) (d_dec 99 2) = true.
Proof.
  cbv zeta. split; [intros n H C; cbn in H; repeat (destruct H as [<-|H]; [try discriminate C; vm_compute; discriminate|]); destruct H|].
  split; [reflexivity|]. split; [reflexivity|]. split; vm_compute; reflexivity.
Qed.
(** If there is none, an exception leaves the function, with the coefficients of the combination that failed. *)
Theorem C98_fail_refuted : exists objs (w : scalars * unit), all_exist objs (fst w) /\ NoDup objs /\ short_names (free_coefs objs (fst w)) /\
  step_wise (fun w => w) (fun _ => d1) (S2L "r2") objs w = Throw.
Proof.
  exists ex_objs, ex_w. split; [apply C98_best_ex|]. split; [apply C98_best_ex|]. split; [split; vm_compute; [lia|discriminate]|]. vm_compute. reflexivity.
Qed.
Print Assumptions C98_fail_refuted.
(** A condition that cannot be computed is a condition that holds. *)
Theorem C98_na_condition_refuted : exists w x, step_wise ex_est (fun _ => d_na) (S2L "r2") ex_objs ex_w = Ok (x, w) /\ SFeqb x (d_dec 95 2) = true.
Proof. do 2 eexists. split; [vm_compute; reflexivity|]. vm_compute. reflexivity. Qed.
Print Assumptions C98_na_condition_refuted.
(** The command: a condition that cannot be computed before the first estimation makes it convert a number that is not an int; one that
    is -1 (true) makes it refuse. *)
Theorem C98_command_na_refuted : forall X (est : scalars * X -> scalars * X) cond test is_var objs w, cond w = d_na -> B_EqsStepWise est cond test is_var objs w = UB.
Proof. intros X est cond test is_var objs w E. unfold B_EqsStepWise. rewrite E. reflexivity. Qed.
Print Assumptions C98_command_na_refuted.
Theorem C98_command_minus_refuted : forall X (est : scalars * X -> scalars * X) cond test is_var objs w, cond w = d_ofZ (-1) -> B_EqsStepWise est cond test is_var objs w = Ok (1, w).
Proof. intros X est cond test is_var objs w E. unfold B_EqsStepWise. rewrite E. reflexivity. Qed.
Print Assumptions C98_command_minus_refuted.

(** What the check of the names creates: the missing coefficients, up to the first variable that does not exist. *)
Definition created (l : list str) (db db' : scalars) : Prop := forall n, M_Kdb.find n db' =
  match M_Kdb.find n db with
  | Some s => Some s
  | None => if existsb (fun x => is_coefficient x && str_eqb n x) l then Some (mkScl d09 d1 d_na) else None
  end.
Lemma check_created is_var : forall pre rest db, (forall x, In x pre -> is_coefficient x = false -> is_var x = true) ->
  match rest with [] => True | v :: _ => is_coefficient v = false /\ is_var v = false end ->
  exists db', check_scl_var is_var (pre ++ rest) db = (match rest with [] => true | _ => false end, db') /\ created pre db db'.
Proof.
  induction pre as [|x pre IH]; intros rest db Hp Hr; cbn [app].
  - exists db. split; [destruct rest as [|v rest]; [reflexivity|]; destruct Hr as [H1 H2]; cbn [check_scl_var]; rewrite H1, H2; reflexivity|].
    intros n. cbn [existsb]. destruct (M_Kdb.find n db); reflexivity.
  - cbn [check_scl_var]. assert (Hp' : forall y, In y pre -> is_coefficient y = false -> is_var y = true) by (intros y Hy; apply Hp; now right).
    destruct (is_coefficient x) eqn:Cx.
    + destruct (IH rest (match M_Kdb.find x db with Some _ => db | None => M_Kdb.put x (mkScl d09 d1 d_na) db end) Hp' Hr) as (db' & E & C).
      exists db'. split; [exact E|]. intros n. rewrite (C n). cbn [existsb]. rewrite Cx. cbn [andb]. destruct (str_eqb n x) eqn:En; cbn [orb].
      * apply str_eqb_iff in En. subst n. destruct (M_Kdb.find x db) as [s|] eqn:Fx; [rewrite Fx; reflexivity|]. rewrite find_put, str_eqb_refl. reflexivity.
      * destruct (M_Kdb.find x db) as [s|]; [reflexivity|]. rewrite find_put, En. reflexivity.
    + rewrite (Hp x (or_introl eq_refl) Cx). destruct (IH rest db Hp' Hr) as (db' & E & C). exists db'. split; [exact E|]. intros n. rewrite (C n). cbn [existsb]. rewrite Cx. reflexivity.
Qed.
(** The command with a correct test and a condition that can be computed and is not -1: when all the variables exist, the missing
    coefficients are created, the stepwise regression runs from there and the command succeeds; the tests, r2 or fstat, are the only ones. *)
Theorem C98_command : forall X (est : scalars * X -> scalars * X) cond test is_var objs (w : scalars * X) z, d_trunc (cond w) = Some z -> z <> -1 ->
  test = S2L "r2" \/ test = S2L "fstat" -> (forall x, In x objs -> is_coefficient x = false -> is_var x = true) ->
  exists db', created objs (fst w) db' /\
    B_EqsStepWise est cond test is_var objs w = (do r <- step_wise est cond test objs (db', snd w); Ok (0, snd r)).
Proof.
  intros X est cond test is_var objs w z Ez Nz Ht Ho. destruct (check_created is_var objs [] (fst w) Ho I) as (db' & E & C). rewrite app_nil_r in E.
  exists db'. split; [exact C|]. unfold B_EqsStepWise. rewrite Ez. replace (z =? -1) with false by lia.
  replace (str_eqb test (S2L "r2") || str_eqb test (S2L "fstat")) with true by (destruct Ht as [-> | ->]; reflexivity). cbn [negb]. rewrite E. reflexivity.
Qed.
Print Assumptions C98_command.
(** When a variable does not exist the command fails, but the coefficients of the formula before it were created. *)
Theorem C98_missing_variable_refuted : forall X (est : scalars * X -> scalars * X) cond test is_var pre v post (w : scalars * X) z, d_trunc (cond w) = Some z -> z <> -1 ->
  test = S2L "r2" \/ test = S2L "fstat" -> (forall x, In x pre -> is_coefficient x = false -> is_var x = true) -> is_coefficient v = false -> is_var v = false ->
  exists db', created pre (fst w) db' /\ B_EqsStepWise est cond test is_var (pre ++ v :: post) w = Ok (1, (db', snd w)).
Proof.
  intros X est cond test is_var pre v post w z Ez Nz Ht Ho Cv Vv. destruct (check_created is_var pre (v :: post) (fst w) Ho (conj Cv Vv)) as (db' & E & C).
  exists db'. split; [exact C|]. unfold B_EqsStepWise. rewrite Ez. replace (z =? -1) with false by lia.
  replace (str_eqb test (S2L "r2") || str_eqb test (S2L "fstat")) with true by (destruct Ht as [-> | ->]; reflexivity). cbn [negb]. rewrite E. reflexivity.
Qed.
Print Assumptions C98_missing_variable_refuted.
Example C98_missing_variable_ex : exists db, B_EqsStepWise (fun w : scalars * unit => w) (fun _ => d1) (S2L "r2") (fun n => str_eqb n (S2L "A")) [S2L "A"; S2L "c1"; S2L "B"; S2L "c2"] ([], tt) =
  Ok (1, (db, tt)) /\ M_Kdb.find (S2L "c1") db = Some (mkScl d09 d1 d_na) /\ M_Kdb.find (S2L "c2") db = None.
Proof. eexists. split; [vm_compute; reflexivity|]. split; vm_compute; reflexivity. Qed.
