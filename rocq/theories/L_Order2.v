(** Prolog and epilog lists, on any vector of rows. *)
From Coq Require Import ZArith Ascii String List Bool Lia Permutation.
From Verif Require Import M_Base M_Names M_Order S_Order L_Order.
Import ListNotations.
Open Scope Z_scope.

Section Block.
Context (n : nat) (rows : list (list Z)) (Hrows : rows_ok n rows) (pre0 : list Z).

Definition flag (od : list bool) (e : nat) : Prop := nth_error od e = Some true.

(** [blk] is the block built so far, after the equations [pre0]. *)
Record inv (blk : list Z) (p : placing) : Prop := {
  i_lenod : length (ordered p) = n;
  i_lenso : length (sorder p) = n;
  i_so : exists rest, sorder p = pre0 ++ blk ++ rest;
  i_nb : nb p = len blk;
  i_nodup : NoDup (pre0 ++ blk);
  i_flag : forall x, In x (pre0 ++ blk) <-> exists e, x = Z.of_nat e /\ flag (ordered p) e;
  i_just : forall b1 e b2, blk = b1 ++ Z.of_nat e :: b2 -> forall x, mem rows e x -> x < 0 \/ In x (pre0 ++ b1)
}.

Lemma inv_range blk p x : inv blk p -> In x (pre0 ++ blk) -> exists e, x = Z.of_nat e /\ (e < n)%nat.
Proof.
  intros I H. apply (i_flag _ _ I) in H as (e & -> & H). exists e. split; [reflexivity|].
  apply nth_lt in H. now rewrite (i_lenod _ _ I) in H.
Qed.
Lemma inv_unplaced blk p e : inv blk p -> nth_error (ordered p) e = Some false -> ~ In (Z.of_nat e) (pre0 ++ blk).
Proof.
  intros I H Q. apply (i_flag _ _ I) in Q as (e' & E & Q). apply Nat2Z.inj in E. subst e'. unfold flag in Q. congruence.
Qed.
Lemma inv_bound blk p : inv blk p -> (length (pre0 ++ blk) <= n)%nat.
Proof.
  intros I. assert (incl (pre0 ++ blk) (map Z.of_nat (seq 0 n))).
  { intros x Hx. destruct (inv_range _ _ _ I Hx) as (e & -> & He). apply in_map, in_seq. lia. }
  apply NoDup_incl_length in H; [|exact (i_nodup _ _ I)]. now rewrite map_length, seq_length in H.
Qed.
Lemma inv_room blk p e : inv blk p -> nth_error (ordered p) e = Some false -> (length (pre0 ++ blk) < n)%nat.
Proof.
  intros I H. assert (U := inv_unplaced _ _ _ I H).
  assert (incl (Z.of_nat e :: pre0 ++ blk) (map Z.of_nat (seq 0 n))).
  { intros x [<-|Hx].
    - apply in_map, in_seq. apply nth_lt in H. rewrite (i_lenod _ _ I) in H. lia.
    - destruct (inv_range _ _ _ I Hx) as (e' & -> & He). apply in_map, in_seq. lia. }
  apply NoDup_incl_length in H0; [|constructor; [exact U|exact (i_nodup _ _ I)]].
  rewrite map_length, seq_length in H0. exact H0.
Qed.

Lemma all_ordered_ok od ps : length od = n -> Forall (fun x => -1 <= x < Z.of_nat n) ps ->
  exists b, all_ordered od ps = Ok b /\
    (b = true -> forall x, In x ps -> x < 0 \/ exists e, x = Z.of_nat e /\ flag od e) /\
    (b = false -> exists e, In (Z.of_nat e) ps /\ nth_error od e = Some false).
Proof.
  intros Hl. induction ps as [|x ps IH]; intros F.
  - exists true. split; [reflexivity|]. split; [intros _ ? []|discriminate].
  - inversion F as [|? ? Hx F']; subst. destruct (IH F') as (b & E & T & Fa). cbn [all_ordered].
    destruct (Z.ltb_spec x 0) as [Hn|Hn].
    + exists b. split; [exact E|]. split.
      * intros Hb y [<-|Hy]; [now left|now apply T].
      * intros Hb. destruct (Fa Hb) as (e & ? & ?). exists e. split; [now right|assumption].
    + destruct (nth_ex od (Z.to_nat x)) as [o Ho]; [lia|].
      assert (G : getz od x = Ok o). { replace x with (Z.of_nat (Z.to_nat x)) by lia. now apply getz_some. }
      rewrite G. cbn [rbind]. destruct o.
      * exists b. split; [exact E|]. split.
        -- intros Hb y [<-|Hy]; [|now apply T]. right. exists (Z.to_nat x). split; [lia|exact Ho].
        -- intros Hb. destruct (Fa Hb) as (e & ? & ?). exists e. split; [now right|assumption].
      * exists false. split; [reflexivity|]. split; [discriminate|]. intros _. exists (Z.to_nat x).
        split; [left; lia|exact Ho].
Qed.

Lemma ready_ok od e row : length od = n -> nth_error rows e = Some row ->
  exists b, ready od row = Ok b /\
    (b = true -> forall x, mem rows e x -> x < 0 \/ exists k, x = Z.of_nat k /\ flag od k) /\
    (b = false -> exists k, mem rows e (Z.of_nat k) /\ nth_error od k = Some false).
Proof.
  intros Hl Hrow. destruct (proj2 Hrows e row Hrow) as [-> | (l & -> & F)].
  - exists true. split; [reflexivity|]. split; [|discriminate]. intros _ x (r & Hr & Hx). rewrite Hrow in Hr.
    inversion Hr; subst. destruct Hx.
  - cbn [ready]. rewrite Z.ltb_irrefl. unfold len. rewrite Nat2Z.id, firstn_all.
    destruct (all_ordered_ok od l Hl F) as (b & E & T & Fa). exists b. split; [exact E|]. split.
    + intros Hb x (r & Hr & Hx). rewrite Hrow in Hr. inversion Hr; subst. now apply T.
    + intros Hb. destruct (Fa Hb) as (k & Hk & ?). exists k. split; [|assumption]. eexists. split; [exact Hrow|exact Hk].
Qed.

Lemma one_pass_ok todo : forall done p blk, rows = done ++ todo -> inv blk p ->
  exists p' b2, one_pass (len pre0) (len done) todo p = Ok p' /\ inv (blk ++ b2) p' /\
    (added p' = true -> added p = true \/ b2 <> []) /\
    (added p' = false -> added p = false /\ p' = p /\ b2 = [] /\
      forall e, (length done <= e < n)%nat -> nth_error (ordered p) e = Some false ->
        exists k, mem rows e (Z.of_nat k) /\ nth_error (ordered p) k = Some false).
Proof.
  induction todo as [|row todo IH]; intros done p blk Hr I.
  - exists p, []. cbn [one_pass]. rewrite app_nil_r in *. split; [reflexivity|]. split; [exact I|].
    split; [now left|]. intros Ha. split; [exact Ha|]. split; [reflexivity|]. split; [reflexivity|].
    intros e He. assert (length done = n) by (rewrite <- Hr; apply Hrows). lia.
  - assert (Hrow : nth_error rows (length done) = Some row).
    { rewrite Hr, nth_error_app2, Nat.sub_diag by lia. reflexivity. }
    assert (Hd : (length done < n)%nat). { apply nth_lt in Hrow. destruct Hrows as [Hl _]. lia. }
    assert (Hstep : len done + 1 = len (done ++ [row])) by (unfold len; rewrite app_length; cbn; lia).
    assert (Hr' : rows = (done ++ [row]) ++ todo) by (rewrite <- app_assoc; exact Hr).
    cbn [one_pass]. destruct (nth_ex (ordered p) (length done)) as [o Ho]; [rewrite (i_lenod _ _ I); lia|].
    change (len done) with (Z.of_nat (length done)) in Hstep |- *. rewrite (getz_some _ _ _ Ho). cbn [rbind]. rewrite Hstep.
    destruct o.
    + destruct (IH _ p blk Hr' I) as (p' & b2 & E & I' & A1 & A2). exists p', b2. split; [exact E|].
      split; [exact I'|]. split; [exact A1|]. intros Ha. destruct (A2 Ha) as (B1 & B2 & B3 & B4).
      split; [exact B1|]. split; [exact B2|]. split; [exact B3|]. intros e He Hf.
      apply B4; [|exact Hf]. rewrite app_length. cbn. assert (e <> length done) by congruence. lia.
    + destruct (ready_ok (ordered p) (length done) row (i_lenod _ _ I) Hrow) as (b & E & T & Fa). rewrite E. cbn [rbind].
      destruct b.
      * assert (Hroom := inv_room _ _ _ I Ho). rewrite app_length in Hroom.
        rewrite setz_ok by (rewrite (i_lenod _ _ I); exact Hd). cbn [rbind].
        replace (len pre0 + nb p) with (Z.of_nat (length pre0 + length blk)) by (rewrite (i_nb _ _ I); unfold len; lia).
        rewrite setz_ok by (rewrite (i_lenso _ _ I); exact Hroom). cbn [rbind].
        set (i := length done) in *.
        set (p1 := mkP _ _ _ _).
        assert (I1 : inv (blk ++ [Z.of_nat i]) p1).
        { assert (U := inv_unplaced _ _ _ I Ho).
          constructor; unfold p1; cbn [ordered sorder nb added].
          - rewrite put_at_length. exact (i_lenod _ _ I).
          - rewrite put_at_length. exact (i_lenso _ _ I).
          - destruct (i_so _ _ I) as (rest & Es). rewrite Es.
            destruct rest as [|y rest].
            { exfalso. assert (Q := i_lenso _ _ I). rewrite Es, app_nil_r, app_length in Q. lia. }
            exists rest. rewrite app_assoc.
            replace (length pre0 + length blk)%nat with (length (pre0 ++ blk)) by apply app_length.
            rewrite put_at_app. rewrite <- !app_assoc. reflexivity.
          - unfold len. rewrite app_length, (i_nb _ _ I). unfold len. cbn. lia.
          - rewrite app_assoc. apply Permutation_NoDup with (Z.of_nat i :: pre0 ++ blk).
            + apply Permutation_cons_append.
            + constructor; [exact U|exact (i_nodup _ _ I)].
          - intros x. rewrite app_assoc, in_app_iff, (i_flag _ _ I). split.
            + intros [(e & -> & Fe)|[<-|[]]].
              * exists e. split; [reflexivity|]. unfold flag in *. rewrite put_at_nth.
                destruct (Nat.eqb_spec i e) as [Ei|Ne]; [congruence|exact Fe].
              * exists i. split; [reflexivity|]. unfold flag. apply put_at_same. rewrite (i_lenod _ _ I). exact Hd.
            + intros (e & -> & Fe). unfold flag in Fe. rewrite put_at_nth in Fe.
              destruct (Nat.eqb_spec i e) as [Ei|Ne]; [right; left; now rewrite Ei|]. left. exists e. auto.
          - intros c1 e c2 Ec x Hx. destruct (list_eq_dec Z.eq_dec c2 []) as [->|Hc].
            + apply app_inj_tail in Ec as [Eb Ee]. apply Nat2Z.inj in Ee. rewrite <- Ee in Hx. rewrite <- Eb.
              destruct (T eq_refl x Hx) as [?|(k & -> & Fk)]; [now left|]. right.
              apply (i_flag _ _ I). exists k. auto.
            + destruct (exists_last Hc) as (c3 & z & ->). rewrite app_comm_cons, app_assoc in Ec.
              apply app_inj_tail in Ec as [Ec _]. apply (i_just _ _ I c1 e c3 Ec x Hx). }
        destruct (IH _ p1 _ Hr' I1) as (p' & b2 & E' & I' & A1 & A2).
        exists p', (Z.of_nat i :: b2). split; [exact E'|]. split.
        { rewrite <- app_assoc in I'. exact I'. }
        split; [intros _; right; discriminate|]. intros Ha. destruct (A2 Ha) as (B1 & _). discriminate B1.
      * destruct (IH _ p blk Hr' I) as (p' & b2 & E' & I' & A1 & A2). exists p', b2. split; [exact E'|].
        split; [exact I'|]. split; [exact A1|]. intros Ha. destruct (A2 Ha) as (B1 & B2 & B3 & B4).
        split; [exact B1|]. split; [exact B2|]. split; [exact B3|]. intros e He Hf.
        destruct (Nat.eq_dec e (length done)) as [->|Ne]; [now apply Fa|].
        apply B4; [|exact Hf]. rewrite app_length. cbn. lia.
Qed.

(** What the block satisfies at the end. *)
Definition closed (p : placing) : Prop := forall e, nth_error (ordered p) e = Some false ->
  exists k, mem rows e (Z.of_nat k) /\ nth_error (ordered p) k = Some false.

Lemma inv_added blk p b : inv blk p -> inv blk (mkP (ordered p) (sorder p) (nb p) b).
Proof. intros [? ? ? ? ? ? ?]. constructor; assumption. Qed.

Lemma passes_ok fuel : forall p blk, inv blk p -> (n - length (pre0 ++ blk) < fuel)%nat ->
  exists p' b2, passes_loop fuel (len pre0) rows p = Ok p' /\ inv (blk ++ b2) p' /\ closed p'.
Proof.
  induction fuel as [|fuel IH]; intros p blk I Hf; [lia|]. cbn [passes_loop].
  destruct (one_pass_ok rows [] _ blk eq_refl (inv_added _ _ false I)) as (p1 & b1 & E & I1 & A1 & A2).
  change (len (@nil (list Z))) with 0 in E. rewrite E. cbn [rbind].
  destruct (added p1) eqn:Ha.
  - assert (b1 <> []) as Hb by (destruct (A1 eq_refl) as [?|?]; [discriminate|assumption]).
    assert (B := inv_bound _ _ I1).
    destruct (IH p1 _ I1) as (p' & b2 & E' & I' & C).
    { rewrite !app_length in *. destruct b1; [now elim Hb|]. cbn [length] in *. lia. }
    exists p', (b1 ++ b2). rewrite app_assoc. auto.
  - destruct (A2 eq_refl) as (_ & -> & -> & B4). exists (mkP (ordered p) (sorder p) (nb p) false), [].
    split; [reflexivity|]. split; [exact I1|]. intros e He. cbn [ordered] in *. apply B4; [|exact He].
    apply nth_lt in He. rewrite (i_lenod _ _ I) in He. cbn. lia.
Qed.

Lemma build_ok od so : (forall x, inv [] (mkP od so 0 x)) ->
  exists p b, build_pre_post_list rows (len pre0) od so = Ok p /\ inv b p /\ closed p.
Proof.
  intros I. destruct (passes_ok (S (length rows)) _ [] (I false)) as (p & b & E & I' & C).
  { destruct Hrows as [-> _]. lia. }
  exists p, b. auto.
Qed.
End Block.
