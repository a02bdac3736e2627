(** Lemmas on the loops of the change of periodicity: low to high, by steps and linear. *)
From Coq Require Import ZArith Ascii String List Bool Lia.
From Verif Require Import M_Base M_Time M_Names M_Lex M_Compile M_Bytes M_Exec M_Kdb M_Vars M_Freq S_Time S_Freq
  L_Time L_Kdb L_Vars L_Vars5 L_Freq.
Import ListNotations.
Open Scope Z_scope.
Local Arguments Z.add : simpl never.
Local Arguments Z.sub : simpl never.
Local Arguments Z.mul : simpl never.

Section L.
Context (A : arith).
Notation F := (F A). Notation na := (na A). Notation num := (num A).
Implicit Types v from to : list F.

(** Whether the value at a position is a number. *)
Definition isnum v (i : Z) : bool := match read A v i with Some x => num x | None => false end.
Lemma isnum_in v i : isnum v i = true -> 0 <= i < Z.of_nat (length v) /\ exists x, read A v i = Some x /\ num x = true.
Proof. unfold isnum. destruct (read A v i) as [x|] eqn:R; [|discriminate]. intros H. split; [eapply read_Some; eauto|eauto]. Qed.

Lemma advance_spec from nb w : nb = Z.of_nat (length from) -> forall n i, 0 <= i <= nb -> nb - i <= Z.of_nat n ->
  exists e, advance A n w from i nb = Ok e /\ i <= e <= nb /\ (forall k, i <= k < e -> isnum from k = w) /\
    (e < nb -> isnum from e = negb w).
Proof.
  intros En. induction n as [|n IH]; intros i Hi Hn; cbn [advance].
  - exists i. repeat split; try lia; intros; lia.
  - destruct (Z.ltb_spec i nb).
    + destruct (get_at_in A from i ltac:(lia)) as (x & -> & Rx). cbn [rbind].
      destruct (Bool.eqb (num x) w) eqn:Ew.
      * apply eqb_prop in Ew. destruct (IH (i + 1) ltac:(lia) ltac:(lia)) as (e & -> & B & Y & N). exists e.
        repeat split; auto; try lia. intros k Hk. destruct (Z.eq_dec k i) as [->|]; [unfold isnum; now rewrite Rx|apply Y; lia].
      * exists i. split; [auto|split; [lia|split; [intros; lia|]]]. intros _. unfold isnum. rewrite Rx.
        destruct (num x), w; auto; discriminate.
    + exists i. repeat split; try lia; intros; lia.
Qed.

Lemma write_block_spec val g t n : forall j to, (forall i, j <= i < j + Z.of_nat n -> val i = Ok (g i)) ->
  0 <= t + j -> t + j + Z.of_nat n <= Z.of_nat (length to) ->
  exists to', write_block A n j t val to = Ok to' /\ length to' = length to /\
    forall u, read A to' u = if (t + j <=? u) && (u <? t + j + Z.of_nat n) then Some (g (u - t)) else read A to u.
Proof.
  induction n as [|n IH]; intros j to Hv H0 H1; cbn [write_block].
  - exists to. split; auto. split; auto. intros u. destruct (Z.leb_spec (t + j) u), (Z.ltb_spec u (t + j + Z.of_nat 0)); cbn [andb]; auto; lia.
  - rewrite Hv by lia. cbn [rbind]. destruct (put_at_in A to (t + j) (g j) ltac:(lia)) as (to1 & -> & L1 & R1). cbn [rbind].
    destruct (IH (j + 1) to1) as (to2 & -> & L2 & R2); [intros; apply Hv; lia|lia|lia|]. exists to2. split; auto. split; [congruence|].
    intros u. rewrite R2, R1.
    destruct (Z.leb_spec (t + (j + 1)) u), (Z.ltb_spec u (t + (j + 1) + Z.of_nat n)), (Z.leb_spec (t + j) u),
      (Z.ltb_spec u (t + j + Z.of_nat (S n))), (Z.eqb_spec u (t + j)); cbn [andb]; auto; try lia.
    subst u. do 2 f_equal. lia.
Qed.
Lemma write_blocks_spec sh val g : 0 < sh -> forall n f t to,
  (forall f' j, f <= f' < f + Z.of_nat n -> 0 <= j < sh -> val f' j = Ok (g f' j)) ->
  0 <= t -> t + Z.of_nat n * sh <= Z.of_nat (length to) ->
  exists to', write_blocks A n f t sh val to = Ok to' /\ length to' = length to /\
    forall u, read A to' u = if (t <=? u) && (u <? t + Z.of_nat n * sh)
                             then Some (g (f + (u - t) / sh) ((u - t) mod sh)) else read A to u.
Proof.
  intros Hs. induction n as [|n IH]; intros f t to Hv H0 H1; cbn [write_blocks].
  - exists to. split; auto. split; auto. intros u. destruct (Z.leb_spec t u), (Z.ltb_spec u (t + Z.of_nat 0 * sh)); cbn [andb]; auto; lia.
  - destruct (write_block_spec (val f) (g f) t (Z.to_nat sh) 0 to) as (to1 & -> & L1 & R1); [intros; apply Hv; lia|lia|nia|].
    cbn [rbind]. rewrite Z2Nat.id in R1 by lia. replace (t + 0) with t in R1 by lia.
    destruct (IH (f + 1) (t + sh) to1) as (to2 & -> & L2 & R2); [intros; apply Hv; lia|lia|nia|].
    exists to2. split; auto. split; [congruence|]. intros u. rewrite R2, R1.
    replace (t + Z.of_nat (S n) * sh) with (t + sh + Z.of_nat n * sh) by lia.
    destruct (Z.leb_spec (t + sh) u), (Z.ltb_spec u (t + sh + Z.of_nat n * sh)), (Z.leb_spec t u),
      (Z.ltb_spec u (t + sh)); cbn [andb]; auto; try lia; try nia.
    + replace (u - t) with (u - (t + sh) + 1 * sh) by lia. rewrite Z.div_add, Z.mod_add by lia. do 2 f_equal. lia.
    + rewrite Z.div_small, Z.mod_small by lia. do 2 f_equal. lia.
Qed.

(** * By steps *)
Lemma div_range u sh a b : 0 < sh -> (a * sh <= u < b * sh <-> a <= u / sh < b).
Proof.
  intros Hs. split; intros H.
  - split; [apply Z.div_le_lower_bound; lia|apply Z.div_lt_upper_bound; lia].
  - pose proof (Z.div_mod u sh ltac:(lia)). pose proof (Z.mod_pos_bound u sh Hs). nia.
Qed.
Lemma step_runs_spec ty from nb sh : 0 < sh -> nb = Z.of_nat (length from) -> forall fuel beg to,
  0 <= beg -> nb - beg < Z.of_nat fuel /\ 0 < Z.of_nat fuel -> nb * sh <= Z.of_nat (length to) ->
  exists to', step_runs A fuel ty from nb sh beg to = Ok to' /\ length to' = length to /\
    forall u, read A to' u = match read A from (u / sh) with
                             | Some x => if (beg <=? u / sh) && num x then Some (converted A ty sh x) else read A to u
                             | None => read A to u
                             end.
Proof.
  intros Hs En. induction fuel as [|k IH]; intros beg to H0 Hk Hl; cbn [step_runs]; [lia|].
  destruct (Z.leb_spec beg nb) as [Hb|Hb].
  2:{ (* past the end *)
    assert (Ea : advance A (Z.to_nat nb) false from beg nb = Ok beg).
    { destruct (Z.to_nat nb); cbn [advance]; auto. destruct (Z.ltb_spec beg nb); [lia|auto]. }
    rewrite Ea. cbn [rbind]. destruct (Z.leb_spec nb beg); [|lia]. exists to. split; auto. split; auto. intros u.
    destruct (read A from (u / sh)) eqn:R; auto. apply read_Some in R. destruct (Z.leb_spec beg (u / sh)); [lia|]. reflexivity. }
  destruct (advance_spec from nb false En (Z.to_nat nb) beg ltac:(lia) ltac:(lia)) as (b & -> & Bb & Nb & Pb). cbn [rbind].
  destruct (Z.leb_spec nb b) as [Hnb|Hnb].
  - exists to. split; auto. split; auto. intros u. destruct (read A from (u / sh)) as [x|] eqn:R; auto.
    destruct (Z.leb_spec beg (u / sh)); auto. cbn [andb]. pose proof (read_Some _ _ _ _ R) as Bu.
    specialize (Nb (u / sh) ltac:(lia)). unfold isnum in Nb. rewrite R in Nb. now rewrite Nb.
  - specialize (Pb Hnb). cbn [negb] in Pb.
    destruct (advance_spec from nb true En (Z.to_nat nb) b ltac:(lia) ltac:(lia)) as (e & -> & Be & Ne & Pe). cbn [rbind].
    assert (b < e). { destruct (Z.eq_dec b e) as [<-|]; [|lia]. specialize (Pe Hnb). rewrite Pb in Pe. discriminate. }
    destruct (Z.ltb_spec b e); [|lia].
    set (g := fun f (_ : Z) => match read A from f with Some x => converted A ty sh x | None => na end).
    destruct (write_blocks_spec sh (fun f _ => do x <- get_at A from f; Ok (match ty with LTOH_FLOW => dvd A x (ofZ A sh) | LTOH_STOCK => x end))
      g Hs (Z.to_nat (e - b)) b (b * sh) to) as (to1 & -> & L1 & R1); [|apply Z.mul_nonneg_nonneg; lia|rewrite Z2Nat.id by lia; clear - Hl Hs Be En; nia|].
    { intros f' j Hf Hj. destruct (get_at_in A from f' ltac:(lia)) as (x & -> & Rx). unfold g. rewrite Rx. reflexivity. }
    cbn [rbind]. destruct (IH (e + 1) to1) as (to2 & -> & L2 & R2); try lia. exists to2. split; auto. split; [congruence|].
    intros u. rewrite R2, R1. rewrite Z2Nat.id by lia.
    replace (b * sh + (e - b) * sh) with (e * sh) by lia.
    pose proof (div_range u sh b e Hs) as DR.
    destruct (read A from (u / sh)) as [x|] eqn:R.
    + pose proof (read_Some _ _ _ _ R) as Bu. destruct (num x) eqn:Nx; [|rewrite !andb_false_r].
      * rewrite !andb_true_r. destruct (Z.leb_spec (e + 1) (u / sh)), (Z.leb_spec beg (u / sh)); try lia; auto.
        -- destruct (Z.leb_spec (b * sh) u), (Z.ltb_spec u (e * sh)); cbn [andb].
           ++ replace (b + (u - b * sh) / sh) with (u / sh); [unfold g; now rewrite R|].
              replace (u - b * sh) with (u + (- b) * sh) by lia. rewrite Z.div_add by lia. lia.
           ++ exfalso. assert (X1 : ~ u / sh < e).
              { intros X. assert (X2 : b <= u / sh < e) by (split; [apply Z.div_le_lower_bound; lia|lia]). apply DR in X2. lia. }
              assert (X3 : u / sh = e) by lia. rewrite X3 in *. specialize (Pe ltac:(lia)). unfold isnum in Pe. rewrite R, Nx in Pe. discriminate.
           ++ exfalso. assert (u / sh < b) by (apply Z.div_lt_upper_bound; lia). specialize (Nb (u / sh) ltac:(lia)).
              unfold isnum in Nb. rewrite R, Nx in Nb. discriminate.
           ++ exfalso. nia.
        -- destruct (Z.leb_spec (b * sh) u), (Z.ltb_spec u (e * sh)); cbn [andb]; auto.
           exfalso. assert (b <= u / sh < e) by (apply DR; lia). lia.
      * destruct (Z.leb_spec (b * sh) u), (Z.ltb_spec u (e * sh)); cbn [andb]; auto.
        exfalso. assert (X : b <= u / sh < e) by (apply DR; lia). specialize (Ne _ X). unfold isnum in Ne. rewrite R, Nx in Ne. discriminate.
    + destruct (Z.leb_spec (b * sh) u), (Z.ltb_spec u (e * sh)); cbn [andb]; auto.
      exfalso. assert (X : b <= u / sh < e) by (apply DR; lia). specialize (Ne _ X). unfold isnum in Ne. rewrite R in Ne. discriminate.
Qed.

Lemma step_vector ty sh nb tnb from : 0 < sh -> nb = Z.of_nat (length from) -> nb * sh <= tnb ->
  exists to, ltoh_vector A LTOH_STEP ty sh nb tnb from = Ok to /\ Z.of_nat (length to) = tnb /\
    forall u, 0 <= u < tnb -> read A to u = Some (match read A from (u / sh) with
                                                  | Some x => if num x then converted A ty sh x else na
                                                  | None => na
                                                  end).
Proof.
  intros Hs En Ht. unfold ltoh_vector. destruct (Z.ltb_spec tnb 0); [nia|].
  destruct (step_runs_spec ty from nb sh Hs En (S (Z.to_nat nb)) 0 (repeat na (Z.to_nat tnb))) as (to & -> & L & R);
    rewrite ?repeat_length in *; try lia.
  exists to. split; auto. split; [lia|]. intros u Hu. rewrite R, read_repeat.
  destruct (Z.leb_spec 0 u), (Z.ltb_spec u (Z.of_nat (Z.to_nat tnb))); cbn [andb]; try lia.
  destruct (read A from (u / sh)) as [x|] eqn:Rx; auto. apply read_Some in Rx. destruct (Z.leb_spec 0 (u / sh)); [|lia]. cbn [andb].
  destruct (num x); reflexivity.
Qed.

(** * Linear *)
Definition offset (ty : ltoh_type) : Z := match ty with LTOH_STOCK => 1 | LTOH_FLOW => 0 end.
Definition lin_val (ty : ltoh_type) from (sh f j : Z) : res F :=
  match ty with
  | LTOH_FLOW => do x <- get_at A from f; Ok (dvd A x (ofZ A sh))
  | LTOH_STOCK => ylin A from f (j + 1) sh
  end.
Lemma lin_step fuel ty from nb sh beg to : lin_runs A (S fuel) ty from nb sh beg to =
    (do beg <- advance A (Z.to_nat nb) false from beg nb;
     if nb <=? beg then Ok to
     else
       do dim <- advance A (Z.to_nat nb) true from beg nb;
       do to <- (if beg <? dim - 1 then write_blocks A (Z.to_nat (dim - 1 - beg)) beg ((beg + offset ty) * sh) sh (lin_val ty from sh) to else Ok to);
       lin_runs A fuel ty from nb sh (dim - 1 + 1) to).
Proof.
  cbn [lin_runs]. destruct (advance A (Z.to_nat nb) false from beg nb) as [b| |]; cbn [rbind]; auto.
  destruct (nb <=? b); auto. destruct (advance A (Z.to_nat nb) true from b nb) as [e| |]; cbn [rbind]; auto.
  destruct ty; cbn [offset lin_val]; auto. replace (b + 0) with b by lia. reflexivity.
Qed.
Definition pair_at from (f : Z) : bool := isnum from f && isnum from (f + 1).

Lemma lin_runs_spec ty from nb sh g : 0 < sh -> nb = Z.of_nat (length from) ->
  (forall f j, pair_at from f = true -> 0 <= j < sh -> lin_val ty from sh f j = Ok (g f j)) ->
  forall fuel beg to, 0 <= beg <= nb -> nb - beg < Z.of_nat fuel -> nb * sh <= Z.of_nat (length to) ->
  exists to', lin_runs A fuel ty from nb sh beg to = Ok to' /\ length to' = length to /\
    forall u, read A to' u = let f := u / sh - offset ty in
      if (beg <=? f) && pair_at from f then Some (g f (u mod sh)) else read A to u.
Proof.
  intros Hs En Hg. induction fuel as [|k IH]; intros beg to H0 Hk Hl; [lia|]. rewrite lin_step.
  destruct (advance_spec from nb false En (Z.to_nat nb) beg ltac:(lia) ltac:(lia)) as (b & -> & Bb & Nb & Pb). cbn [rbind].
  destruct (Z.leb_spec nb b) as [Hnb|Hnb].
  - exists to. split; auto. split; auto. intros u. cbn zeta. destruct (Z.leb_spec beg (u / sh - offset ty)); auto. cbn [andb].
    unfold pair_at. destruct (isnum from (u / sh - offset ty)) eqn:I1; auto. pose proof (isnum_in _ _ I1) as [B1 _].
    rewrite Nb in I1 by lia. discriminate.
  - specialize (Pb Hnb). cbn [negb] in Pb.
    destruct (advance_spec from nb true En (Z.to_nat nb) b ltac:(lia) ltac:(lia)) as (e & -> & Be & Ne & Pe). cbn [rbind].
    assert (b < e). { destruct (Z.eq_dec b e) as [<-|]; [|lia]. specialize (Pe Hnb). rewrite Pb in Pe. discriminate. }
    assert (Ho : 0 <= offset ty <= 1) by (destruct ty; cbn; lia).
    assert (W : exists to1, (if b <? e - 1 then write_blocks A (Z.to_nat (e - 1 - b)) b ((b + offset ty) * sh) sh (lin_val ty from sh) to else Ok to) = Ok to1 /\
      length to1 = length to /\ forall u, read A to1 u = let f := u / sh - offset ty in if (b <=? f) && (f <? e - 1) then Some (g f (u mod sh)) else read A to u).
    { destruct (Z.ltb_spec b (e - 1)).
      - destruct (write_blocks_spec sh (lin_val ty from sh) g Hs (Z.to_nat (e - 1 - b)) b ((b + offset ty) * sh) to) as (to1 & E1 & L1 & R1).
        + intros f j Hf Hj. apply Hg; auto. unfold pair_at. rewrite !Ne by lia. reflexivity.
        + nia.
        + rewrite Z2Nat.id by lia. replace ((b + offset ty) * sh + (e - 1 - b) * sh) with ((e - 1 + offset ty) * sh) by ring. nia.
        + exists to1. split; auto. split; auto. intros u. cbn zeta. rewrite R1. rewrite Z2Nat.id by lia.
          replace ((b + offset ty) * sh + (e - 1 - b) * sh) with ((e - 1 + offset ty) * sh) by ring.
          pose proof (div_range u sh (b + offset ty) (e - 1 + offset ty) Hs) as DR.
          destruct (Z.leb_spec ((b + offset ty) * sh) u), (Z.ltb_spec u ((e - 1 + offset ty) * sh)),
            (Z.leb_spec b (u / sh - offset ty)), (Z.ltb_spec (u / sh - offset ty) (e - 1)); cbn [andb]; auto; try lia.
          replace (u - (b + offset ty) * sh) with (u + (- (b + offset ty)) * sh) by ring.
          rewrite Z.div_add, Z.mod_add by lia. do 2 f_equal. lia.
      - exists to. split; auto. split; auto. intros u. cbn zeta.
        destruct (Z.leb_spec b (u / sh - offset ty)), (Z.ltb_spec (u / sh - offset ty) (e - 1)); cbn [andb]; auto; lia. }
    destruct W as (to1 & -> & L1 & R1). cbn [rbind]. replace (e - 1 + 1) with e by lia.
    destruct (IH e to1) as (to2 & -> & L2 & R2); try lia. exists to2. split; auto. split; [congruence|].
    intros u. rewrite R2, R1. cbn zeta. set (f := u / sh - offset ty).
    destruct (Z.leb_spec e f), (Z.leb_spec beg f), (Z.leb_spec b f), (Z.ltb_spec f (e - 1)); cbn [andb]; try lia; auto.
    + unfold pair_at. rewrite !Ne by lia. reflexivity.
    + assert (Ef : f = e - 1) by lia. unfold pair_at. rewrite Ef. replace (e - 1 + 1) with e by lia.
      destruct (isnum from e) eqn:Ie; [|rewrite andb_false_r; auto]. destruct (isnum_in _ _ Ie) as [B1 _]. specialize (Pe ltac:(lia)). cbn [negb] in Pe. congruence.
    + unfold pair_at. rewrite (Nb f) by lia. reflexivity.
Qed.

(** Linear interpolation of a stock reads past the end when the last two values are numbers. *)
Lemma write_blocks_snoc sh val n : forall f t to, write_blocks A (S n) f t sh val to =
  (do to <- write_blocks A n f t sh val to; write_block A (Z.to_nat sh) 0 (t + Z.of_nat n * sh) (val (f + Z.of_nat n)) to).
Proof.
  induction n as [|n IH]; intros f t to.
  - cbn [write_blocks rbind]. replace (f + Z.of_nat 0) with f by lia. replace (t + Z.of_nat 0 * sh) with t by lia.
    destruct (write_block A (Z.to_nat sh) 0 t (val f) to); reflexivity.
  - cbn [write_blocks]. cbn [write_blocks] in IH. destruct (write_block A (Z.to_nat sh) 0 t (val f) to) as [to1| |]; cbn [rbind]; auto.
    rewrite IH. replace (f + 1 + Z.of_nat n) with (f + Z.of_nat (S n)) by lia.
    replace (t + sh + Z.of_nat n * sh) with (t + Z.of_nat (S n) * sh) by lia. reflexivity.
Qed.
Lemma write_block_snoc val t n : forall j to, write_block A (S n) j t val to =
  (do to <- write_block A n j t val to; do v <- val (j + Z.of_nat n); put_at A to (t + (j + Z.of_nat n)) v).
Proof.
  induction n as [|n IH]; intros j to.
  - cbn [write_block rbind]. replace (j + Z.of_nat 0) with j by lia.
    destruct (val j) as [v| |]; cbn [rbind]; auto. destruct (put_at A to (t + j) v); reflexivity.
  - cbn [write_block]. cbn [write_block] in IH. destruct (val j) as [v| |]; cbn [rbind]; auto.
    destruct (put_at A to (t + j) v) as [to1| |]; cbn [rbind]; auto. rewrite IH.
    replace (j + 1 + Z.of_nat n) with (j + Z.of_nat (S n)) by lia. reflexivity.
Qed.
Lemma ylin_ok from f k sh : 0 < sh -> 0 < k <= sh -> 0 <= f -> f + 1 < Z.of_nat (length from) ->
  (k = sh -> isnum from (f + 1) = true -> f + 2 < Z.of_nat (length from)) -> exists x, ylin A from f k sh = Ok x.
Proof.
  intros Hs Hk Hf Hl Hend. unfold ylin.
  assert (D : f + k / sh = f \/ (k = sh /\ f + k / sh = f + 1)).
  { destruct (Z.eq_dec k sh) as [->|]; [right; rewrite Z.div_same by lia; lia|left; rewrite Z.div_small by lia; lia]. }
  set (lo := f + k / sh) in *.
  assert (B : 0 <= lo < Z.of_nat (length from)) by (destruct D as [->|[_ ->]]; lia).
  destruct (get_at_in A from lo B) as (yl & -> & Rl). cbn [rbind]. destruct (num yl) eqn:Nl; [|eauto].
  assert (B2 : 0 <= lo + 1 < Z.of_nat (length from)).
  { destruct D as [->|[Ek El]]; [lia|]. rewrite El in *. specialize (Hend Ek). unfold isnum in Hend. rewrite Rl, Nl in Hend.
    specialize (Hend eq_refl). lia. }
  destruct (get_at_in A from (lo + 1) B2) as (yh & -> & Rh). cbn [rbind]. destruct (num yh); eauto.
Qed.
Lemma ylin_past from f sh : 0 < sh -> isnum from (f + 1) = true -> f + 2 = Z.of_nat (length from) -> ylin A from f sh sh = UB.
Proof.
  intros Hs Hn Hl. unfold ylin. rewrite Z.div_same by lia. destruct (isnum_in _ _ Hn) as (B & x & Rx & Nx).
  unfold get_at at 1. rewrite Rx. cbn [rbind]. rewrite Nx. unfold get_at. rewrite read_out by lia. reflexivity.
Qed.
Lemma write_block_some val t n : forall j to, (forall i, j <= i < j + Z.of_nat n -> exists x, val i = Ok x) ->
  0 <= t + j -> t + j + Z.of_nat n <= Z.of_nat (length to) ->
  exists to', write_block A n j t val to = Ok to' /\ length to' = length to.
Proof.
  induction n as [|n IH]; intros j to Hv H0 H1; cbn [write_block]; [eauto|].
  destruct (Hv j ltac:(lia)) as [x ->]. cbn [rbind]. destruct (put_at_in A to (t + j) x ltac:(lia)) as (to1 & -> & L1 & R1). cbn [rbind].
  destruct (IH (j + 1) to1) as (to2 & -> & L2); [intros; apply Hv; lia|lia|lia|]. exists to2. split; auto. congruence.
Qed.
Lemma write_blocks_some sh val : 0 < sh -> forall n f t to,
  (forall f' j, f <= f' < f + Z.of_nat n -> 0 <= j < sh -> exists x, val f' j = Ok x) ->
  0 <= t -> t + Z.of_nat n * sh <= Z.of_nat (length to) ->
  exists to', write_blocks A n f t sh val to = Ok to' /\ length to' = length to.
Proof.
  intros Hs. induction n as [|n IH]; intros f t to Hv H0 H1; cbn [write_blocks]; [eauto|].
  destruct (write_block_some (val f) t (Z.to_nat sh) 0 to) as (to1 & -> & L1); [intros; apply Hv; lia|lia|nia|].
  cbn [rbind]. destruct (IH (f + 1) (t + sh) to1) as (to2 & -> & L2); [intros; apply Hv; lia|lia|nia|].
  exists to2. split; auto. congruence.
Qed.

Lemma lin_past from nb sh : 0 < sh -> nb = Z.of_nat (length from) -> pair_at from (nb - 2) = true ->
  forall fuel beg to, 0 <= beg <= nb - 2 -> nb - beg < Z.of_nat fuel -> nb * sh <= Z.of_nat (length to) ->
  lin_runs A fuel LTOH_STOCK from nb sh beg to = UB.
Proof.
  intros Hs En Hp. unfold pair_at in Hp. apply andb_true_iff in Hp. destruct Hp as [P1 P2]. replace (nb - 2 + 1) with (nb - 1) in P2 by lia.
  induction fuel as [|k IH]; intros beg to H0 Hk Hl; [lia|]. rewrite lin_step.
  destruct (advance_spec from nb false En (Z.to_nat nb) beg ltac:(lia) ltac:(lia)) as (b & -> & Bb & Nb & Pb). cbn [rbind].
  assert (Hb : b <= nb - 2). { destruct (Z.leb_spec b (nb - 2)); auto. rewrite Nb in P1 by lia. discriminate. }
  destruct (Z.leb_spec nb b); [lia|].
  specialize (Pb ltac:(lia)). cbn [negb] in Pb.
  destruct (advance_spec from nb true En (Z.to_nat nb) b ltac:(lia) ltac:(lia)) as (e & -> & Be & Ne & Pe). cbn [rbind].
  assert (b < e). { destruct (Z.eq_dec b e) as [<-|]; [|lia]. rewrite Pe in Pb by lia. discriminate. }
  cbn [offset]. destruct (Z.eq_dec e nb) as [->|N].
  - destruct (Z.ltb_spec b (nb - 1)); [|lia].
    replace (Z.to_nat (nb - 1 - b)) with (S (Z.to_nat (nb - 2 - b))) by lia. rewrite write_blocks_snoc.
    destruct (write_blocks_some sh (lin_val LTOH_STOCK from sh) Hs (Z.to_nat (nb - 2 - b)) b ((b + 1) * sh) to) as (to1 & -> & L1).
    { intros f j Hf Hj. cbn [lin_val]. apply ylin_ok; lia. }
    { nia. } { rewrite Z2Nat.id by lia. nia. }
    cbn [rbind]. replace (Z.to_nat sh) with (S (Z.to_nat (sh - 1))) by lia. rewrite write_block_snoc.
    replace (b + Z.of_nat (Z.to_nat (nb - 2 - b))) with (nb - 2) by lia.
    destruct (write_block_some (lin_val LTOH_STOCK from sh (nb - 2)) ((b + 1) * sh + Z.of_nat (Z.to_nat (nb - 2 - b)) * sh) (Z.to_nat (sh - 1)) 0 to1) as (to2 & -> & L2).
    { intros j Hj. cbn [lin_val]. apply ylin_ok; lia. }
    { nia. } { rewrite !Z2Nat.id by lia. nia. }
    cbn [rbind lin_val]. replace (0 + Z.of_nat (Z.to_nat (sh - 1)) + 1) with sh by lia. rewrite ylin_past; auto; try lia.
    replace (nb - 2 + 1) with (nb - 1) by lia. exact P2.
  - assert (e < nb - 2).
    { destruct (Z.ltb_spec e (nb - 2)); auto. assert (e = nb - 2 \/ e = nb - 1) as [-> | ->] by lia; rewrite Pe in *; try lia; discriminate. }
    assert (W : exists to1, (if b <? e - 1 then write_blocks A (Z.to_nat (e - 1 - b)) b ((b + 1) * sh) sh (lin_val LTOH_STOCK from sh) to else Ok to) = Ok to1 /\ length to1 = length to).
    { destruct (Z.ltb_spec b (e - 1)); [|eauto]. apply write_blocks_some; auto.
      - intros f j Hf Hj. cbn [lin_val]. apply ylin_ok; lia.
      - nia.
      - rewrite Z2Nat.id by lia. nia. }
    destruct W as (to1 & -> & L1). cbn [rbind]. apply IH; lia.
Qed.

(** One variable, linear flow: the last value of each sequence of numbers is dropped. *)
Lemma lin_flow_vector sh nb tnb from : 0 < sh -> nb = Z.of_nat (length from) -> nb * sh <= tnb ->
  exists to, ltoh_vector A LTOH_LIN LTOH_FLOW sh nb tnb from = Ok to /\ Z.of_nat (length to) = tnb /\
    forall u, 0 <= u < tnb -> read A to u = Some (match read A from (u / sh) with
                                                  | Some x => if pair_at from (u / sh) then dvd A x (ofZ A sh) else na
                                                  | None => na
                                                  end).
Proof.
  intros Hs En Ht. unfold ltoh_vector. destruct (Z.ltb_spec tnb 0); [nia|].
  destruct (lin_runs_spec LTOH_FLOW from nb sh (fun f _ => match read A from f with Some x => dvd A x (ofZ A sh) | None => na end) Hs En)
    with (fuel := S (Z.to_nat nb)) (beg := 0) (to := repeat na (Z.to_nat tnb)) as (to & -> & L & R); rewrite ?repeat_length in *; try lia.
  { intros f j Hp Hj. unfold pair_at in Hp. apply andb_true_iff in Hp. destruct Hp as [P1 _]. destruct (isnum_in _ _ P1) as (B & x & Rx & Nx).
    cbn [lin_val]. unfold get_at. rewrite Rx. reflexivity. }
  exists to. split; auto. split; [lia|]. intros u Hu. rewrite R, read_repeat. cbn [offset]. cbn zeta. replace (u / sh - 0) with (u / sh) by lia.
  destruct (Z.leb_spec 0 u), (Z.ltb_spec u (Z.of_nat (Z.to_nat tnb))); cbn [andb]; try lia.
  assert (0 <= u / sh) by (apply Z.div_pos; lia). destruct (Z.leb_spec 0 (u / sh)); [|lia]. cbn [andb].
  destruct (pair_at from (u / sh)) eqn:Ep; [|now destruct (read A from (u / sh))].
  unfold pair_at in Ep. apply andb_true_iff in Ep. destruct Ep as [P1 _]. destruct (isnum_in _ _ P1) as (B & x & Rx & Nx). rewrite Rx. reflexivity.
Qed.
(** Linear stock. *)
Lemma lin_stock_vector sh nb tnb from : 0 < sh -> nb = Z.of_nat (length from) -> nb * sh <= tnb -> pair_at from (nb - 2) = false ->
  exists to, ltoh_vector A LTOH_LIN LTOH_STOCK sh nb tnb from = Ok to /\ Z.of_nat (length to) = tnb /\
    forall u, 0 <= u < tnb -> exists x, read A to u = Some x /\
      if pair_at from (u / sh - 1) then ylin A from (u / sh - 1) (u mod sh + 1) sh = Ok x else x = na.
Proof.
  intros Hs En Ht Hp. unfold ltoh_vector. destruct (Z.ltb_spec tnb 0); [nia|].
  assert (V : forall f j, pair_at from f = true -> 0 <= j < sh -> exists x, lin_val LTOH_STOCK from sh f j = Ok x).
  { intros f j Pf Hj. pose proof Pf as Pf'. unfold pair_at in Pf'. apply andb_true_iff in Pf'. destruct Pf' as [P1 P2].
    pose proof (isnum_in _ _ P1) as [B1 _]. pose proof (isnum_in _ _ P2) as [B2 _]. cbn [lin_val]. apply ylin_ok; try lia.
    intros _ _. destruct (Z.eq_dec f (nb - 2)) as [->|]; [congruence|lia]. }
  destruct (lin_runs_spec LTOH_STOCK from nb sh (fun f j => match lin_val LTOH_STOCK from sh f j with Ok x => x | _ => na end) Hs En)
    with (fuel := S (Z.to_nat nb)) (beg := 0) (to := repeat na (Z.to_nat tnb)) as (to & -> & L & R); rewrite ?repeat_length in *; try lia.
  { intros f j Pf Hj. destruct (V f j Pf Hj) as [x ->]. reflexivity. }
  exists to. split; auto. split; [lia|]. intros u Hu. rewrite R, read_repeat. cbn [offset]. cbn zeta.
  pose proof (Z.mod_pos_bound u sh Hs) as MB.
  destruct (Z.leb_spec 0 u), (Z.ltb_spec u (Z.of_nat (Z.to_nat tnb))); cbn [andb]; try lia.
  destruct (pair_at from (u / sh - 1)) eqn:Ep.
  - unfold pair_at in Ep. pose proof Ep as Ep'. apply andb_true_iff in Ep'. destruct Ep' as [P1 _]. destruct (isnum_in _ _ P1) as (B & x & Rx & Nx).
    destruct (Z.leb_spec 0 (u / sh - 1)); [|lia]. cbn [andb]. destruct (V (u / sh - 1) (u mod sh) Ep MB) as [y Hy]. cbn [lin_val] in *. rewrite Hy. exists y. split; reflexivity.
  - rewrite andb_false_r. exists na. split; reflexivity.
Qed.
Lemma lin_stock_past sh nb tnb from : 0 < sh -> nb = Z.of_nat (length from) -> nb * sh <= tnb -> pair_at from (nb - 2) = true ->
  ltoh_vector A LTOH_LIN LTOH_STOCK sh nb tnb from = UB.
Proof.
  intros Hs En Ht Hp. unfold ltoh_vector. destruct (Z.ltb_spec tnb 0); [nia|].
  pose proof Hp as Hp'. unfold pair_at in Hp'. apply andb_true_iff in Hp'. destruct Hp' as [P1 _]. destruct (isnum_in _ _ P1) as [B _].
  apply lin_past; auto; rewrite ?repeat_length; lia.
Qed.
End L.
