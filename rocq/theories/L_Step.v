From Coq Require Import ZArith Ascii String List Bool Lia Floats.SpecFloat.
From Verif Require Import M_Base M_Names M_Lex M_Double M_Decimal M_Kdb M_Ascii M_Step S_Step L_Names L_Kdb.
Import ListNotations.
Open Scope Z_scope.

(** * The order of doubles *)
Lemma pos_cmp_trans (e1 e2 e3 : Z) (m1 m2 m3 : positive) :
  match Z.compare e1 e2 with Lt => Lt | Eq => Pos.compare_cont Eq m1 m2 | Gt => Gt end = Lt ->
  match Z.compare e2 e3 with Lt => Lt | Eq => Pos.compare_cont Eq m2 m3 | Gt => Gt end = Lt ->
  match Z.compare e1 e3 with Lt => Lt | Eq => Pos.compare_cont Eq m1 m3 | Gt => Gt end = Lt.
Proof.
  change (Pos.compare_cont Eq m1 m2) with (Pos.compare m1 m2). change (Pos.compare_cont Eq m2 m3) with (Pos.compare m2 m3). change (Pos.compare_cont Eq m1 m3) with (Pos.compare m1 m3).
  destruct (Z.compare_spec e1 e2), (Z.compare_spec e2 e3), (Z.compare_spec e1 e3); try discriminate; try reflexivity; try lia.
  rewrite !Pos.compare_lt_iff. lia.
Qed.
Lemma neg_cmp_trans (e1 e2 e3 : Z) (m1 m2 m3 : positive) :
  match Z.compare e1 e2 with Lt => Gt | Eq => CompOpp (Pos.compare_cont Eq m1 m2) | Gt => Lt end = Lt ->
  match Z.compare e2 e3 with Lt => Gt | Eq => CompOpp (Pos.compare_cont Eq m2 m3) | Gt => Lt end = Lt ->
  match Z.compare e1 e3 with Lt => Gt | Eq => CompOpp (Pos.compare_cont Eq m1 m3) | Gt => Lt end = Lt.
Proof.
  change (Pos.compare_cont Eq m1 m2) with (Pos.compare m1 m2). change (Pos.compare_cont Eq m2 m3) with (Pos.compare m2 m3). change (Pos.compare_cont Eq m1 m3) with (Pos.compare m1 m3).
  rewrite <- !Pos.compare_antisym.
  destruct (Z.compare_spec e1 e2), (Z.compare_spec e2 e3), (Z.compare_spec e1 e3); try discriminate; try reflexivity; try lia.
  rewrite !Pos.compare_lt_iff. lia.
Qed.
Lemma lt_trans (x y z : dbl) : SFltb x y = true -> SFltb y z = true -> SFltb x z = true.
Proof.
  unfold SFltb, SFcompare.
  destruct x as [sx|sx| |sx mx ex], y as [sy|sy| |sy my ey], z as [sz|sz| |sz mz ez]; try discriminate; try destruct sx; try destruct sy; try destruct sz; try discriminate; try reflexivity.
  - pose proof (neg_cmp_trans ex ey ez mx my mz) as H. cbv zeta. intros A B.
    match goal with |- match ?t with _ => _ end = true => replace t with Lt; [reflexivity|] end. symmetry. apply H.
    + match type of A with match ?t with _ => _ end = true => destruct t; try discriminate A; reflexivity end.
    + match type of B with match ?t with _ => _ end = true => destruct t; try discriminate B; reflexivity end.
  - pose proof (pos_cmp_trans ex ey ez mx my mz) as H. intros A B.
    match goal with |- match ?t with _ => _ end = true => replace t with Lt; [reflexivity|] end. symmetry. apply H.
    + match type of A with match ?t with _ => _ end = true => destruct t; try discriminate A; reflexivity end.
    + match type of B with match ?t with _ => _ end = true => destruct t; try discriminate B; reflexivity end.
Qed.

(** * Combinations *)
Fixpoint bits (i j : Z) (n : nat) : list bool := match n with O => [] | S k => Z.testbit i j :: bits i (j + 1) k end.
Fixpoint number (c : list bool) : Z := match c with [] => 0 | b :: c' => Z.b2z b + 2 * number c' end.
Lemma bits_length i n : forall j, length (bits i j n) = n.
Proof. induction n as [|n IH]; intros j; [reflexivity|]. cbn [bits length]. rewrite IH. reflexivity. Qed.
Lemma number_range c : 0 <= number c < 2 ^ Z.of_nat (length c).
Proof. induction c as [|b c IH]; [cbn; lia|]. cbn [number length]. rewrite Nat2Z.inj_succ, Z.pow_succ_r by lia. destruct b; cbn [Z.b2z]; lia. Qed.
Lemma bits_shift b a n : forall j, 0 <= j -> bits (Z.b2z b + 2 * a) (j + 1) n = bits a j n.
Proof.
  induction n as [|n IH]; intros j J; [reflexivity|]. cbn [bits]. rewrite IH by lia. f_equal.
  replace (j + 1) with (Z.succ j) by lia. rewrite Z.add_comm. apply Z.testbit_succ_r. exact J.
Qed.
Lemma bits_number c : bits (number c) 0 (length c) = c.
Proof.
  induction c as [|b c IH]; [reflexivity|]. cbn [number length bits]. rewrite bits_shift by lia. rewrite IH. f_equal.
  rewrite Z.add_comm. apply Z.testbit_0_r.
Qed.
Lemma chosen_number c : (1 <= chosen c)%nat -> 1 <= number c.
Proof.
  induction c as [|b c IH]; [cbn; lia|]. unfold chosen in *. cbn [filter number]. pose proof (number_range c). destruct b; cbn [length Z.b2z]; [lia|]. intros H1. specialize (IH H1). lia.
Qed.
Lemma bits_zero n : forall j, bits 0 j n = repeat false n.
Proof. induction n as [|n IH]; intros j; [reflexivity|]. cbn [bits repeat]. rewrite IH, Z.testbit_0_l. reflexivity. Qed.
Lemma chosen_false n : chosen (repeat false n) = O.
Proof. induction n as [|n IH]; [reflexivity|exact IH]. Qed.
Lemma combinations_in n i : In i (combinations n) <-> 1 <= i < 2 ^ Z.of_nat n.
Proof.
  unfold combinations. rewrite in_map_iff. assert (P : Z.of_nat (2 ^ n) = 2 ^ Z.of_nat n) by (rewrite Nat2Z.inj_pow; reflexivity).
  assert (Q : (1 <= 2 ^ n)%nat) by (pose proof (Nat.pow_nonzero 2 n); lia). split.
  - intros (k & <- & H). apply in_seq in H. lia.
  - intros H. exists (Z.to_nat i). split; [lia|]. apply in_seq. lia.
Qed.
Lemma combination_of n c : length c = n -> (2 <= chosen c)%nat -> exists i, In i (combinations n) /\ bits i 0 n = c.
Proof.
  intros <- C. exists (number c). split; [|apply bits_number]. apply combinations_in. pose proof (number_range c). pose proof (chosen_number c ltac:(lia)). lia.
Qed.

(** * One run *)
Lemma find_notin (k : str) : forall (l : list str) (c : list bool), ~ In k l -> List.find (fun x => str_eqb (fst x) k) (combine l c) = None.
Proof.
  induction l as [|n l IH]; intros [|b c] N; try reflexivity. cbn [combine List.find fst].
  replace (str_eqb n k) with false by (symmetry; apply str_eqb_neq; intros ->; apply N; left; reflexivity). apply IH. intros H. apply N. right. exact H.
Qed.
Lemma set_all_ok i : forall names j db used nscl, NoDup names -> (forall n, In n names -> M_Kdb.find n db <> None) ->
  j + Z.of_nat (length names) <= 30 -> used + Z.of_nat (length (concat names)) + Z.of_nat (length names) <= 511 ->
  exists db', set_all i j names db used nscl = Ok (db', nscl + Z.of_nat (chosen (bits i j (length names)))) /\ prepared names (bits i j (length names)) db db'.
Proof.
  induction names as [|n names IH]; intros j db used nscl ND E J U.
  - exists db. split; [cbn; f_equal; f_equal; lia|]. intros k. cbn [bits length combine List.find]. destruct (M_Kdb.find k db); reflexivity.
  - inversion ND as [|? ? Nn ND']; subst. cbn [length concat] in *. rewrite app_length in U. cbn [set_all bits]. replace (30 <=? j) with false by lia.
    unfold E_SetScl. destruct (M_Kdb.find n db) as [s|] eqn:F; [|destruct (E n (or_introl eq_refl) F)].
    assert (G : forall (v : scalar) m, In m names -> M_Kdb.find m (M_Kdb.put n v db) <> None).
    { intros v m Hm. rewrite find_put. destruct (str_eqb m n); [discriminate|]. apply E. right. exact Hm. }
    assert (P : forall (b : bool) (v : scalar) db', v = (if b then mkScl d09 d1 (std s) else mkScl d0 d0 (std s)) -> prepared names (bits i (j + 1) (length names)) (M_Kdb.put n v db) db' ->
      prepared (n :: names) (b :: bits i (j + 1) (length names)) db db').
    { intros b v db' -> H k. specialize (H k). rewrite find_put in H. cbn [combine List.find fst]. rewrite (str_eqb_sym k n) in H.
      destruct (str_eqb n k) eqn:Q.
      - apply str_eqb_iff in Q. subst k. rewrite F. rewrite (find_notin n names _ Nn) in H. rewrite H. destruct b; reflexivity.
      - exact H. }
    destruct (Z.testbit i j) eqn:B; cbn [rbind].
    + replace (511 <? used + Z.of_nat (length n) + 1) with false by lia.
      destruct (IH (j + 1) (M_Kdb.put n (mkScl d09 d1 (std s)) db) (used + Z.of_nat (length n) + 1) (nscl + 1) ND' (G _) ltac:(lia) ltac:(lia)) as (db' & R & Q).
      exists db'. split; [rewrite R; unfold chosen; cbn [filter length]; f_equal; f_equal; lia|]. eapply P; [|exact Q]. reflexivity.
    + destruct (IH (j + 1) (M_Kdb.put n (mkScl d0 d0 (std s)) db) used nscl ND' (G _) ltac:(lia) ltac:(lia)) as (db' & R & Q).
      exists db'. split; [exact R|]. eapply P; [|exact Q]. reflexivity.
Qed.

Section Steps.
Context {X : Type} (est : scalars * X -> scalars * X) (cond : scalars * X -> dbl) (test : str) (names : list str).
Hypothesis ND : NoDup names.
Hypothesis SN : short_names names.
Lemma step_ok Inv score ok : repeatable est cond test names Inv score ok ->
  forall i w, Inv w -> let c := bits i 0 (length names) in
  exists db', prepared names c (fst w) db' /\
    if (2 <=? chosen c)%nat then let w1 := est (db', snd w) in step_1 est test i names w = Ok (score c, w1) /\ Inv w1 /\ negb (SFeqb (cond w1) d0) = ok c
    else step_1 est test i names w = Ok (d0, (db', snd w)) /\ Inv (db', snd w).
Proof.
  intros [Ex R] i w I c. destruct SN as [S1 S2]. destruct (set_all_ok i names 0 (fst w) 0 0 ND (Ex w I) ltac:(lia) ltac:(lia)) as (db' & E & P). fold c in E, P.
  exists db'. split; [exact P|]. destruct (R w c db' I (bits_length _ _ _) P) as (I' & H). unfold step_1. rewrite E. cbn [rbind].
  destruct (Nat.leb_spec 2 (chosen c)) as [L|L].
  - replace (1 <? 0 + Z.of_nat (chosen c)) with true by lia. destruct (H L) as (I1 & (s & Fs & Vs) & O). rewrite Fs, Vs. split; [reflexivity|]. split; assumption.
  - replace (1 <? 0 + Z.of_nat (chosen c)) with false by lia. split; [reflexivity|exact I'].
Qed.
Lemma search_ok Inv score ok : repeatable est cond test names Inv score ok ->
  forall is last_i last w, Inv w -> SFltb (d_ofZ (-999999999999)) last = true \/ last = d_ofZ (-999999999999) ->
  exists i w', search est cond test is names last_i last w = Ok (i, w') /\ Inv w' /\
    (forall j, In j is -> eligible names score ok (bits j 0 (length names)) -> SFltb last (score (bits j 0 (length names))) = false \/
       (eligible names score ok (bits i 0 (length names)) /\ In i is /\ SFltb (score (bits i 0 (length names))) (score (bits j 0 (length names))) = false)) /\
    ((i = last_i /\ forall j, In j is -> eligible names score ok (bits j 0 (length names)) -> SFltb last (score (bits j 0 (length names))) = false) \/
     (In i is /\ eligible names score ok (bits i 0 (length names)) /\ SFltb last (score (bits i 0 (length names))) = true)).
Proof.
  intros R. induction is as [|i is IH]; intros last_i last w I La; cbn [search].
  - exists last_i, w. split; [reflexivity|]. split; [exact I|]. split; [intros j []|]. left. split; [reflexivity|intros j []].
  - destruct (step_ok Inv score ok R i w I) as (db' & P & St). set (c := bits i 0 (length names)) in *. cbv zeta in St.
    destruct (Nat.leb_spec 2 (chosen c)) as [L|L].
    + destruct St as (E & I1 & O). rewrite E. cbn [rbind]. rewrite O.
      destruct (SFltb last (score c) && ok c && negb (SFeqb (score c) d0))%bool eqn:T.
      * apply andb_prop in T as [T T3]. apply andb_prop in T as [T1 T2]. apply negb_true_iff in T3.
        assert (Above : SFltb (d_ofZ (-999999999999)) (score c) = true) by (destruct La as [La|La]; [exact (lt_trans _ _ _ La T1)|rewrite La in T1; exact T1]).
        assert (El : eligible names score ok c) by (split; [apply bits_length|split; [exact L|split; [exact T2|split; [exact T3|exact Above]]]]).
        destruct (IH i (score c) _ I1 (or_introl Above)) as (i' & w' & S' & I' & A' & B'). exists i', w'. split; [exact S'|]. split; [exact I'|].
        assert (Best : forall j, In j (i :: is) -> eligible names score ok (bits j 0 (length names)) ->
          eligible names score ok (bits i' 0 (length names)) /\ In i' (i :: is) /\ SFltb (score (bits i' 0 (length names))) (score (bits j 0 (length names))) = false).
        { intros j Hj Ej. destruct B' as [[-> Bl]|(Hi & Ei & Bl)].
          - split; [exact El|]. split; [left; reflexivity|]. destruct Hj as [<-|Hj]; [fold c; destruct (SFltb (score c) (score c)) eqn:Z; [|reflexivity]|apply Bl; assumption].
            exfalso. clear -Z. unfold SFltb, SFcompare in Z. destruct (score c) as [s|s| |s m e]; try destruct s; try discriminate Z; rewrite Z.compare_refl in Z; change (Pos.compare_cont Eq m m) with (Pos.compare m m) in Z; rewrite Pos.compare_refl in Z; discriminate Z.
          - split; [exact Ei|]. split; [right; exact Hi|]. destruct Hj as [<-|Hj].
            + fold c. destruct (SFltb (score (bits i' 0 (length names))) (score c)) eqn:Z; [|reflexivity]. pose proof (lt_trans _ _ _ Bl Z) as Y. exfalso. clear -Y.
              unfold SFltb, SFcompare in Y. destruct (score c) as [s|s| |s m e]; try destruct s; try discriminate Y; rewrite Z.compare_refl in Y; change (Pos.compare_cont Eq m m) with (Pos.compare m m) in Y; rewrite Pos.compare_refl in Y; discriminate Y.
            + destruct (A' j Hj Ej) as [A1|(_ & _ & A1)]; [|exact A1]. destruct (SFltb (score (bits i' 0 (length names))) (score (bits j 0 (length names)))) eqn:Z; [|reflexivity]. rewrite (lt_trans _ _ _ Bl Z) in A1. discriminate A1. }
        split; [intros j Hj Ej; right; apply Best; assumption|]. right. destruct B' as [[-> _]|(Hi & Ei & Bl)].
        -- split; [left; reflexivity|]. split; [exact El|exact T1].
        -- split; [right; exact Hi|]. split; [exact Ei|exact (lt_trans _ _ _ T1 Bl)].
      * destruct (IH last_i last _ I1 La) as (i' & w' & S' & I' & A' & B'). exists i', w'. split; [exact S'|]. split; [exact I'|].
        assert (Hi : eligible names score ok c -> SFltb last (score c) = false).
        { intros (_ & _ & E2 & E3 & _). rewrite E2, E3, andb_true_r in T. cbn [negb] in T. rewrite andb_true_r in T. exact T. }
        split.
        -- intros j [<-|Hj] Ej; [left; apply Hi; exact Ej|]. destruct (A' j Hj Ej) as [A1|(A1 & A2 & A3)]; [left; exact A1|right; split; [exact A1|split; [right; exact A2|exact A3]]].
        -- destruct B' as [[-> Bl]|(B1 & B2 & B3)]; [left; split; [reflexivity|intros j [<-|Hj] Ej; [apply Hi; exact Ej|apply Bl; assumption]]|right; split; [right; exact B1|split; assumption]].
    + destruct St as (E & I1). rewrite E. cbn [rbind]. rewrite andb_false_r.
      destruct (IH last_i last _ I1 La) as (i' & w' & S' & I' & A' & B'). exists i', w'. split; [exact S'|]. split; [exact I'|].
      assert (Hi : ~ eligible names score ok c) by (intros (_ & E1 & _); lia).
      split.
      * intros j [<-|Hj] Ej; [destruct (Hi Ej)|]. destruct (A' j Hj Ej) as [A1|(A1 & A2 & A3)]; [left; exact A1|right; split; [exact A1|split; [right; exact A2|exact A3]]].
      * destruct B' as [[-> Bl]|(B1 & B2 & B3)]; [left; split; [reflexivity|intros j [<-|Hj] Ej; [destruct (Hi Ej)|apply Bl; assumption]]|right; split; [right; exact B1|split; assumption]].
Qed.
End Steps.
