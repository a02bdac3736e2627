(** Proofs about packs. *)
From Coq Require Import ZArith List Bool Lia.
From Verif Require Import M_Base M_Bytes L_Bytes M_Pack S_Pack.
Import ListNotations.
Open Scope Z_scope.
Local Arguments Z.add : simpl never.
Local Arguments Z.mul : simpl never.
Local Arguments Z.of_nat : simpl never.

Lemma lenZ_app a b : lenZ (a ++ b) = lenZ a + lenZ b.
Proof. unfold lenZ. rewrite app_length. lia. Qed.
Lemma lenZ_nonneg a : 0 <= lenZ a.
Proof. unfold lenZ. lia. Qed.
Lemma lenZ_zeros n : 0 <= n -> lenZ (zeros n) = n.
Proof. intros. unfold lenZ, zeros. rewrite repeat_length. lia. Qed.
Lemma firstZ_app a b : firstZ (lenZ a) (a ++ b) = a.
Proof. unfold firstZ, lenZ. rewrite Nat2Z.id, firstn_app, Nat.sub_diag, firstn_all. cbn. apply app_nil_r. Qed.
Lemma skipZ_app a b : skipZ (lenZ a) (a ++ b) = b.
Proof. unfold skipZ, lenZ. rewrite Nat2Z.id, skipn_app, Nat.sub_diag, skipn_all. reflexivity. Qed.
Lemma firstZ_len n a : 0 <= n <= lenZ a -> lenZ (firstZ n a) = n.
Proof. unfold firstZ, lenZ. intros. rewrite firstn_length. lia. Qed.
Lemma firstZ_all n a : lenZ a <= n -> firstZ n a = a.
Proof. unfold firstZ, lenZ. intros. apply firstn_all2. lia. Qed.
Lemma split_at n a : 0 <= n <= lenZ a -> exists u v, a = u ++ v /\ lenZ u = n.
Proof.
  intros. exists (firstZ n a), (skipZ n a). split; [unfold firstZ, skipZ; now rewrite firstn_skipn|].
  now apply firstZ_len.
Qed.

Lemma peek_app a b c off n : off = lenZ a -> n = lenZ b -> peek (a ++ b ++ c) off n = Ok b.
Proof.
  intros -> ->. unfold peek. rewrite !lenZ_app.
  pose proof (lenZ_nonneg a); pose proof (lenZ_nonneg b); pose proof (lenZ_nonneg c).
  rewrite (proj2 (Z.leb_le 0 _)), (proj2 (Z.leb_le 0 (lenZ b))), (proj2 (Z.leb_le (_ + _) _)) by lia.
  cbn [andb]. rewrite skipZ_app. now rewrite firstZ_app.
Qed.
Lemma splice_app a b c x off : off = lenZ a -> lenZ x = lenZ b -> splice (a ++ b ++ c) off x = Ok (a ++ x ++ c).
Proof.
  intros -> E. unfold splice. rewrite !lenZ_app.
  pose proof (lenZ_nonneg a); pose proof (lenZ_nonneg b); pose proof (lenZ_nonneg c).
  rewrite (proj2 (Z.leb_le 0 _)), (proj2 (Z.leb_le (_ + _) _)) by lia. cbn [andb].
  rewrite firstZ_app. do 3 f_equal.
  rewrite E, <- lenZ_app, app_assoc. apply skipZ_app.
Qed.
(** A copy that does not fill the whole area. *)
Lemma splice_prefix a b x off : off = lenZ a -> lenZ x <= lenZ b ->
  exists r, splice (a ++ b) off x = Ok (a ++ x ++ r) /\ lenZ (x ++ r) = lenZ b.
Proof.
  intros E H. pose proof (lenZ_nonneg x). destruct (split_at (lenZ x) b ltac:(lia)) as (u & v & -> & L).
  exists v. split; [now apply splice_app|]. rewrite !lenZ_app. lia.
Qed.

Section Sz.
Variable sz : nat.
Hypothesis Hsz : sz = 4%nat \/ sz = 8%nat.
Let szZ := Z.of_nat sz.

(** Buffers that begin with integers. *)
Definition words (ws : list Z) : list Z := flat_map (le sz) ws.
Definition small (v : Z) : Prop := - 256 ^ szZ <= 2 * v < 256 ^ szZ.

Lemma words_app a b : words (a ++ b) = words a ++ words b.
Proof. unfold words. now rewrite flat_map_app. Qed.
Lemma lenZ_words ws : lenZ (words ws) = Z.of_nat (length ws) * szZ.
Proof.
  induction ws as [|w ws IH]; [reflexivity|].
  change (words (w :: ws)) with (le sz w ++ words ws). rewrite lenZ_app, IH.
  cbn [length]. unfold lenZ. rewrite le_length. fold szZ. lia.
Qed.
Lemma get_pos_words u w v r i : i = Z.of_nat (length u) -> small w ->
  get_pos sz (words (u ++ w :: v) ++ r) i = Ok w.
Proof.
  intros -> S. unfold get_pos. rewrite words_app. change (words (w :: v)) with (le sz w ++ words v).
  rewrite <- !app_assoc.
  rewrite (peek_app (words u) (le sz w) (words v ++ r)).
  - cbn [rbind]. f_equal. apply signed_le_le; [lia|exact S].
  - rewrite lenZ_words. reflexivity.
  - unfold lenZ. now rewrite le_length.
Qed.
Lemma set_pos_words u w v r i x : i = Z.of_nat (length u) ->
  set_pos sz (words (u ++ w :: v) ++ r) i x = Ok (words (u ++ x :: v) ++ r).
Proof.
  intros ->. unfold set_pos. rewrite !words_app.
  change (words (w :: v)) with (le sz w ++ words v). change (words (x :: v)) with (le sz x ++ words v).
  rewrite <- !app_assoc. apply splice_app.
  - rewrite lenZ_words. reflexivity.
  - unfold lenZ. now rewrite !le_length.
Qed.
Lemma set_pos_0 w v r x : set_pos sz (words (w :: v) ++ r) 0 x = Ok (words (x :: v) ++ r).
Proof. exact (set_pos_words [] w v r 0 x eq_refl). Qed.
Lemma set_pos_1 y w v r x : set_pos sz (words (y :: w :: v) ++ r) 1 x = Ok (words (y :: x :: v) ++ r).
Proof. exact (set_pos_words [y] w v r 1 x eq_refl). Qed.
Lemma get_pos_0 w v r : small w -> get_pos sz (words (w :: v) ++ r) 0 = Ok w.
Proof. exact (get_pos_words [] w v r 0 eq_refl). Qed.
Lemma get_pos_2 x y w v r : small w -> get_pos sz (words (x :: y :: w :: v) ++ r) 2 = Ok w.
Proof. exact (get_pos_words [x; y] w v r 2 eq_refl). Qed.
(** Writing just after the integers. *)
Lemma set_pos_after ws e r i x : i = Z.of_nat (length ws) -> lenZ e = szZ ->
  set_pos sz (words ws ++ e ++ r) i x = Ok (words (ws ++ [x]) ++ r).
Proof.
  intros -> E. unfold set_pos. rewrite words_app. cbn [words flat_map]. rewrite app_nil_r, <- app_assoc.
  apply splice_app.
  - rewrite lenZ_words. reflexivity.
  - unfold lenZ at 1. rewrite le_length. fold szZ. lia.
Qed.

Lemma get_pos_nth ws r i : (i < length ws)%nat -> small (nth i ws 0) ->
  get_pos sz (words ws ++ r) (Z.of_nat i) = Ok (nth i ws 0).
Proof.
  intros L S. destruct (nth_split ws 0 L) as (u & v & E & Lu).
  rewrite E at 1. apply get_pos_words; [now rewrite Lu|exact S].
Qed.

Lemma shift_spec d offs : forall u r, Forall small offs ->
  shift_positions sz (length offs) (Z.of_nat (length u) - 2) d (words (u ++ offs) ++ r) =
  Ok (words (u ++ map (Z.add d) offs) ++ r).
Proof.
  induction offs as [|o offs IH]; intros u r F; [reflexivity|].
  inversion F; subst. cbn [length shift_positions map].
  replace (Z.of_nat (length u) - 2 + 2) with (Z.of_nat (length u)) by lia.
  rewrite get_pos_words by auto. cbn [rbind]. rewrite set_pos_words by auto. cbn [rbind].
  specialize (IH (u ++ [o + d]) r H2). rewrite app_length in IH. cbn [length] in IH.
  replace (Z.of_nat (length u + 1) - 2) with (Z.of_nat (length u) - 2 + 1) in IH by lia.
  rewrite <- !app_assoc in IH. cbn [app] in IH. rewrite IH. now rewrite (Z.add_comm o d).
Qed.

(** Shape of a pack: [chunks] are the elements with their padding. *)
Definition offsets (h : Z) (chunks : list (list Z)) : list Z :=
  (fix go (h : Z) (l : list (list Z)) : list Z :=
     match l with [] => [] | c :: l' => h :: go (h + lenZ c) l' end) h chunks.
Definition header (n : nat) : Z := szZ * (2 + 2 * ((Z.of_nat n + 1) / 2)).
Definition is_pack (buf : list Z) (chunks : list (list Z)) : Prop :=
  let n := length chunks in
  exists e, buf = words (header n + lenZ (concat chunks) :: Z.of_nat n :: offsets (header n) chunks) ++ e ++ concat chunks /\
    lenZ e = (if Nat.even n then 0 else szZ).

Lemma offsets_length cs : forall h, length (offsets h cs) = length cs.
Proof. induction cs as [|c cs IH]; intros h; cbn; [reflexivity|]. now rewrite IH. Qed.
Lemma offsets_shift d cs : forall h, map (Z.add d) (offsets h cs) = offsets (h + d) cs.
Proof.
  induction cs as [|c cs IH]; intros h; [reflexivity|]. cbn [offsets map].
  f_equal; [lia|]. change (map (Z.add d) (offsets (h + lenZ c) cs) = offsets (h + d + lenZ c) cs).
  rewrite IH. f_equal. lia.
Qed.
Lemma offsets_app a c : forall h, offsets h (a ++ [c]) = offsets h a ++ [h + lenZ (concat a)].
Proof.
  induction a as [|x a IH]; intros h; cbn [offsets app concat].
  - cbn. f_equal. unfold lenZ. cbn. lia.
  - f_equal. change (offsets (h + lenZ x) (a ++ [c]) = offsets (h + lenZ x) a ++ [h + lenZ (x ++ concat a)]).
    rewrite IH, lenZ_app. do 2 f_equal. lia.
Qed.
Lemma offsets_nth cs : forall h k, (k < length cs)%nat ->
  nth k (offsets h cs) 0 = h + lenZ (concat (firstn k cs)).
Proof.
  induction cs as [|c cs IH]; intros h k L; [cbn in L; lia|]. destruct k as [|k].
  - cbn. unfold lenZ. cbn. lia.
  - cbn [firstn concat]. rewrite lenZ_app. cbn [length] in L.
    change (nth (S k) (offsets h (c :: cs)) 0) with (nth k (offsets (h + lenZ c) cs) 0). rewrite IH by lia. lia.
Qed.
Lemma offsets_bound cs : forall h o, In o (offsets h cs) -> h <= o <= h + lenZ (concat cs).
Proof.
  induction cs as [|c cs IH]; intros h o H; [destruct H|]. cbn [concat]. rewrite lenZ_app.
  pose proof (lenZ_nonneg c); pose proof (lenZ_nonneg (concat cs)).
  destruct H as [<-|H]; [lia|]. apply IH in H. lia.
Qed.

Lemma header_even n : Nat.even n = true -> header (S n) = header n + 2 * szZ.
Proof.
  intros H. apply Nat.even_spec in H. destruct H as [m ->]. unfold header. 
  replace ((Z.of_nat (S (2 * m)) + 1) / 2) with (Z.of_nat m + 1) by (apply Z.div_unique with 0; lia).
  replace ((Z.of_nat (2 * m) + 1) / 2) with (Z.of_nat m) by (apply Z.div_unique with 1; lia). lia.
Qed.
Lemma header_odd n : Nat.even n = false -> header (S n) = header n.
Proof.
  intros H. assert (O : Nat.odd n = true) by (unfold Nat.odd; now rewrite H).
  apply Nat.odd_spec in O. destruct O as [m ->]. unfold header.
  replace ((Z.of_nat (S (2 * m + 1)) + 1) / 2) with (Z.of_nat m + 1) by (apply Z.div_unique with 1; lia).
  replace ((Z.of_nat (2 * m + 1) + 1) / 2) with (Z.of_nat m + 1) by (apply Z.div_unique with 0; lia). lia.
Qed.
Lemma parity n : (Z.of_nat n mod 2 =? 0) = Nat.even n.
Proof.
  rewrite <- Nat.negb_odd. destruct (Nat.even n) eqn:E.
  - rewrite <- Nat.negb_even, E. apply Nat.even_spec in E. destruct E as [m ->].
    apply Z.eqb_eq. replace (Z.of_nat (2 * m)) with (Z.of_nat m * 2) by lia. apply Z.mod_mul. lia.
  - rewrite <- Nat.negb_even, E. assert (O : Nat.odd n = true) by (unfold Nat.odd; now rewrite E).
    apply Nat.odd_spec in O. destruct O as [m ->]. apply Z.eqb_neq.
    replace (Z.of_nat (2 * m + 1)) with (1 + Z.of_nat m * 2) by lia. rewrite Z.mod_add by lia. discriminate.
Qed.
Lemma header_pos n : 0 < header n.
Proof. unfold header. assert (0 <= (Z.of_nat n + 1) / 2) by (apply Z.div_pos; lia). unfold szZ. nia. Qed.

Lemma room_alt lg : lg + 4 - lg mod 4 = room lg.
Proof. unfold room. pose proof (Z.div_mod lg 4 ltac:(lia)). lia. Qed.
Lemma room_bounds lg : 0 <= lg -> lg < room lg <= lg + 4.
Proof. intros. unfold room. pose proof (Z.div_mod lg 4 ltac:(lia)). pose proof (Z.mod_pos_bound lg 4 ltac:(lia)). lia. Qed.

Definition fits (chunk : list Z) (a : addition) : Prop :=
  lenZ chunk = room (snd (fst a)) /\ exists p, chunk = wanted a ++ p.

Lemma is_pack_create : is_pack (P_create sz) [].
Proof.
  exists []. split; [|reflexivity]. unfold P_create, words, header, szZ. destruct Hsz as [H|H]; rewrite H; reflexivity.
Qed.

Lemma small_ok v : 0 <= v < 2 ^ 31 -> small v.
Proof.
  intros H. unfold small, szZ. assert (B : 2 ^ 32 <= 256 ^ Z.of_nat sz).
  { destruct Hsz as [H'|H']; rewrite H'; vm_compute; discriminate. }
  change (2 ^ 32) with (2 * 2 ^ 31) in B. lia.
Qed.

Lemma P_add_spec buf chunks a : is_pack buf chunks -> sound a ->
  header (S (length chunks)) + lenZ (concat chunks) + room (snd (fst a)) < 2 ^ 31 ->
  let '(d, lg, junk) := a in
  exists buf' c, P_add sz buf d lg junk = Ok buf' /\ fits c a /\ is_pack buf' (chunks ++ [c]).
Proof.
  intros (e & -> & Le) S B. destruct a as [[d lg] junk]. cbn [snd fst] in B.
  destruct S as (S1 & S2 & S3). set (n := length chunks) in *. set (D := concat chunks) in *.
  pose proof (room_bounds lg S1) as Rb. pose proof (header_pos n) as Hn. pose proof (lenZ_nonneg D) as HD.
  assert (Hle : header n <= header (Datatypes.S n)).
  { destruct (Nat.even n) eqn:Ev; [rewrite header_even by auto; unfold szZ; lia|now rewrite header_odd]. }
  assert (Hnb : Z.of_nat n < header n).
  { unfold header. assert (Z.of_nat n - 1 < 2 * ((Z.of_nat n + 1) / 2)).
    { pose proof (Z.div_mod (Z.of_nat n + 1) 2 ltac:(lia)). pose proof (Z.mod_pos_bound (Z.of_nat n + 1) 2 ltac:(lia)). lia. }
    assert (4 <= szZ) by (unfold szZ; lia). nia. }
  set (W := header n + lenZ D :: Z.of_nat n :: offsets (header n) chunks) in *.
  assert (So : Forall small (offsets (header n) chunks)).
  { apply Forall_forall. intros o Ho. apply offsets_bound in Ho. apply small_ok. fold D in Ho. lia. }
  unfold P_add. rewrite room_alt.
  assert (G0 : forall r, get_pos sz (words W ++ r) 0 = Ok (header n + lenZ D)).
  { intros r. apply (get_pos_words [] _ _ r 0); [reflexivity|]. apply small_ok. lia. }
  assert (G1 : forall r, get_pos sz (words W ++ r) 1 = Ok (Z.of_nat n)).
  { intros r. apply (get_pos_words [_] _ _ r 1); [reflexivity|]. apply small_ok. lia. }
  rewrite G0. cbn [rbind]. rewrite G1. cbn [rbind]. rewrite parity. fold szZ.
  assert (LB : lenZ (words W ++ e ++ D) = header n + lenZ D).
  { rewrite !lenZ_app, lenZ_words, Le. unfold W. cbn [length]. rewrite offsets_length. fold n. unfold header.
    destruct (Nat.even n) eqn:Ev.
    - apply Nat.even_spec in Ev. destruct Ev as [m Em]. rewrite Em.
      replace ((Z.of_nat (2 * m) + 1) / 2) with (Z.of_nat m) by (apply Z.div_unique with 1; lia). lia.
    - assert (O : Nat.odd n = true) by (unfold Nat.odd; now rewrite Ev). apply Nat.odd_spec in O. destruct O as [m Em]. rewrite Em.
      replace ((Z.of_nat (2 * m + 1) + 1) / 2) with (Z.of_nat m + 1) by (apply Z.div_unique with 0; lia). lia. }
  rewrite LB, Z.ltb_irrefl. rewrite (firstZ_all (header n + lenZ D)) by lia.
  set (np := if Nat.even n then 2 * szZ else 0) in *.
  assert (Hnp : header (Datatypes.S n) = header n + np).
  { unfold np. destruct (Nat.even n) eqn:Ev; [now apply header_even|]. rewrite header_odd; auto; lia. }
  assert (Np0 : 0 <= np) by (unfold np, szZ; destruct (Nat.even n); lia).
  destruct (Z.of_nat n =? 0) eqn:N0.
  - (* first element *)
    apply Z.eqb_eq in N0. assert (C0 : chunks = []) by (destruct chunks; [reflexivity|cbn in n; lia]).
    subst chunks. cbn in D. subst D. cbn [length] in n. subst n. cbn [Nat.even] in *. 
    assert (e = []) by (destruct e; [reflexivity|unfold lenZ in Le; cbn in Le; lia]). subst e.
    cbn [app offsets] in W. subst W np.
    assert (Z4 : exists z1 z2, zeros (room lg + 2 * szZ) = z1 ++ z2 ++ zeros (room lg) /\ lenZ z1 = szZ /\ lenZ z2 = szZ).
    { exists (zeros szZ), (zeros szZ). repeat split; try (apply lenZ_zeros; unfold szZ; lia).
      unfold zeros. rewrite <- !repeat_app. f_equal. unfold szZ. lia. }
    destruct Z4 as (z1 & z2 & -> & L1 & L2). rewrite !app_nil_r. 
    rewrite set_pos_0. cbn [rbind app].
    rewrite set_pos_1. cbn [rbind app].
    rewrite (set_pos_after [_; _] z1 (z2 ++ zeros (room lg)) 2) by auto. cbn [rbind app].
    replace (header 0 + lenZ [] + (room lg + 2 * szZ)) with (header 1 + room lg) by (rewrite Hnp; unfold lenZ; cbn [length]; lia).
    assert (T2 : 2 * szZ + 2 * szZ = header 1) by (unfold header; change ((Z.of_nat 1 + 1) / 2) with 1; lia). rewrite T2. clear T2.
    set (W := [header 1 + room lg; 1; header 1]) in *.
    assert (K : exists c, fits c (d, lg, junk) /\ (if lg =? 0 then Ok (words W ++ z2 ++ zeros (room lg))
               else do p <- get_pos sz (words W ++ z2 ++ zeros (room lg)) 2;
                 match d with Some x => splice (words W ++ z2 ++ zeros (room lg)) p (firstZ lg x)
                            | None => splice (words W ++ z2 ++ zeros (room lg)) p (zeros (room lg)) end)
              = Ok (words W ++ z2 ++ c)).
    { assert (LW : header 1 = lenZ (words W ++ z2)).
      { rewrite lenZ_app, lenZ_words, L2. unfold header. cbn [length W]. change ((Z.of_nat 1 + 1) / 2) with 1. lia. }
      assert (HZ : lenZ (zeros (room lg)) = room lg) by (apply lenZ_zeros; lia).
      destruct (lg =? 0) eqn:El.
      - apply Z.eqb_eq in El. subst lg. exists (zeros (room 0)). split; [|reflexivity]. split; [exact HZ|].
        destruct d; cbn; eauto.
      - unfold W at 1. rewrite get_pos_2 by (apply small_ok; rewrite Hnp; lia).
        cbn [rbind]. destruct d as [x|].
        + destruct (splice_prefix (words W ++ z2) (zeros (room lg)) (firstZ lg x) (header 1) LW) as (r & E & L).
          { rewrite firstZ_len by (unfold lenZ; lia). lia. }
          exists (firstZ lg x ++ r). rewrite <- !app_assoc in E. split; [|exact E].
          split; [now rewrite L|]. exists r. reflexivity.
        + exists (zeros (room lg)). split.
          * split; [exact HZ|]. exists (zeros (room lg - lg)). cbn. unfold zeros. rewrite <- repeat_app. f_equal. lia.
          * pose proof (splice_app (words W ++ z2) (zeros (room lg)) [] (zeros (room lg)) (header 1) LW eq_refl) as E.
            rewrite !app_nil_r, <- !app_assoc in E. exact E. }
    destruct K as (c & F & E). rewrite E. exists (words W ++ z2 ++ c), c. split; [reflexivity|]. split; [exact F|].
    exists z2. cbn [app length offsets concat]. rewrite app_nil_r. destruct F as [F _]. cbn [fst snd] in F.
    split; [|exact L2]. rewrite F. reflexivity.
  - (* at least one element already *)
    apply Z.eqb_neq in N0.
    assert (exists c0 cs, chunks = c0 :: cs) as (c0 & cs & Ec) by (destruct chunks; [cbn in n; lia|eauto]).
    assert (EO : offsets (header n) chunks = header n :: offsets (header n + lenZ c0) cs) by (rewrite Ec; reflexivity).
    assert (Er : (words W ++ e ++ D) ++ zeros (room lg + np) = words W ++ e ++ D ++ zeros (room lg + np)) by now rewrite <- !app_assoc.
    rewrite Er.
    assert (G2 : get_pos sz (words W ++ e ++ D ++ zeros (room lg + np)) 2 = Ok (header n)).
    { unfold W. rewrite EO. apply (get_pos_words [_; _] _ _ _ 2); [reflexivity|]. apply small_ok. lia. }
    rewrite G2. cbn [rbind]. replace (header n + lenZ D - header n) with (lenZ D) by lia.
    assert (LW : header n = lenZ (words W ++ e)).
    { rewrite app_assoc, lenZ_app in LB. lia. }
    pose proof (peek_app (words W ++ e) D (zeros (room lg + np)) (header n) (lenZ D) LW eq_refl) as Pk.
    rewrite <- !app_assoc in Pk. rewrite Pk. cbn [rbind].
    assert (Lj : lenZ (firstZ (room lg) junk) = room lg) by (apply firstZ_len; unfold lenZ; lia).
    (* the new data *)
    assert (K : exists c, fits c (d, lg, junk) /\ (if lg =? 0 then Ok (D ++ firstZ (room lg) junk)
       else match d with
            | Some x => splice (D ++ firstZ (room lg) junk) (lenZ D) (firstZ lg x)
            | None => splice (D ++ firstZ (room lg) junk) (lenZ D) (zeros (room lg)) end) = Ok (D ++ c)).
    { destruct (lg =? 0) eqn:El.
      - apply Z.eqb_eq in El. subst lg. eexists. split; [|reflexivity]. split; [exact Lj|]. destruct d; cbn; eauto.
      - destruct d as [x|].
        + destruct (splice_prefix D (firstZ (room lg) junk) (firstZ lg x) (lenZ D) eq_refl) as (r & E & L).
          { rewrite firstZ_len by (unfold lenZ; lia). lia. }
          exists (firstZ lg x ++ r). split; [|exact E]. split; [now rewrite L|]. exists r. reflexivity.
        + exists (zeros (room lg)). split.
          * split; [exact (lenZ_zeros (room lg) ltac:(lia))|]. exists (zeros (room lg - lg)). cbn. unfold zeros. rewrite <- repeat_app. f_equal. lia.
          * pose proof (splice_app D (firstZ (room lg) junk) [] (zeros (room lg)) (lenZ D) eq_refl) as E.
            rewrite !app_nil_r in E. apply E. rewrite Lj. apply lenZ_zeros. lia. }
    destruct K as (c & F & ->). cbn [rbind].
    pose proof F as [Fc _]. cbn [fst snd] in Fc.
    rewrite Nat2Z.id.
    pose proof (shift_spec np (offsets (header n) chunks) [header n + lenZ D; Z.of_nat n] (e ++ D ++ zeros (room lg + np)) So) as Sh.
    rewrite offsets_length in Sh. fold n in Sh. cbn [length app] in Sh. change (Z.of_nat 2 - 2) with 0 in Sh.
    fold W in Sh. rewrite Sh. cbn [rbind]. clear Sh. rewrite offsets_shift, <- Hnp.
    set (O' := offsets (header (Datatypes.S n)) chunks).
    (* the position of the new element *)
    assert (K : exists e', lenZ e' = (if Nat.even (Datatypes.S n) then 0 else szZ) /\ exists old, lenZ old = lenZ D + room lg /\ set_pos sz (words (header n + lenZ D :: Z.of_nat n :: O') ++ e ++ D ++ zeros (room lg + np)) (Z.of_nat n + 2) (header n + lenZ D + np) =
      Ok (words (header n + lenZ D :: Z.of_nat n :: O' ++ [header (Datatypes.S n) + lenZ D]) ++ e' ++ old)).
    { assert (Lo : length (header n + lenZ D :: Z.of_nat n :: O') = (n + 2)%nat).
      { cbn. unfold O'. rewrite offsets_length. fold n. lia. }
      assert (Evn : Nat.even (Datatypes.S n) = negb (Nat.even n)) by (rewrite Nat.even_succ; unfold Nat.odd; reflexivity).
      rewrite Evn. unfold np in *. destruct (Nat.even n) eqn:Ev; cbn [negb].
      - assert (e = []) by (destruct e; [reflexivity|unfold lenZ in Le; cbn in Le; lia]). subst e. cbn [app].
        assert (Lz : lenZ (D ++ zeros (room lg + 2 * szZ)) = lenZ D + room lg + 2 * szZ).
        { rewrite lenZ_app, lenZ_zeros; unfold szZ; lia. }
        destruct (split_at szZ (D ++ zeros (room lg + 2 * szZ))) as (u & v & E & Lu); [unfold szZ in *; lia|].
        rewrite E in Lz. rewrite lenZ_app in Lz.
        destruct (split_at szZ v) as (u2 & v2 & E2 & Lu2); [unfold szZ in *; lia|]. subst v. rewrite lenZ_app in Lz.
        exists u2. split; [exact Lu2|]. exists v2. split; [lia|]. rewrite E.
        rewrite set_pos_after by (auto; rewrite Lo; lia).
        replace (header n + lenZ D + 2 * szZ) with (header (Datatypes.S n) + lenZ D) by lia. reflexivity.
      - exists []. split; [reflexivity|]. exists (D ++ zeros (room lg + 0)).
        split; [rewrite lenZ_app, lenZ_zeros; lia|].
        rewrite set_pos_after by (auto; rewrite Lo; lia).
        replace (header n + lenZ D + 0) with (header (Datatypes.S n) + lenZ D) by lia. reflexivity. }
    destruct K as (e' & Le' & old & Lold & ->). cbn [rbind].
    rewrite set_pos_0. cbn [rbind app].
    rewrite set_pos_1. cbn [rbind app].
    assert (EO' : exists t, O' ++ [header (Datatypes.S n) + lenZ D] = header (Datatypes.S n) :: t).
    { unfold O'. rewrite Ec. cbn. eauto. }
    destruct EO' as (t & EO'). rewrite EO'.
    rewrite get_pos_2 by (apply small_ok; lia). cbn [rbind].
    rewrite get_pos_0 by (apply small_ok; lia). cbn [rbind].
    rewrite <- EO'.
    replace (header n + lenZ D + (room lg + np) - header (Datatypes.S n)) with (lenZ (D ++ c)) by (rewrite lenZ_app; lia).
    pose proof (peek_app [] (D ++ c) [] 0 (lenZ (D ++ c)) eq_refl eq_refl) as Pk2. cbn [app] in Pk2. rewrite app_nil_r in Pk2.
    rewrite Pk2. cbn [rbind].
    set (W' := header n + lenZ D + (room lg + np) :: Z.of_nat n + 1 :: O' ++ [header (Datatypes.S n) + lenZ D]).
    assert (LW' : header (Datatypes.S n) = lenZ (words W' ++ e')).
    { rewrite lenZ_app, lenZ_words, Le'. unfold W', O'. cbn [length]. rewrite app_length, offsets_length. fold n. cbn [length].
      unfold header. destruct (Nat.even (Datatypes.S n)) eqn:Ev.
      - apply Nat.even_spec in Ev. destruct Ev as [m Em]. rewrite Em.
        replace ((Z.of_nat (2 * m) + 1) / 2) with (Z.of_nat m) by (apply Z.div_unique with 1; lia). lia.
      - assert (O : Nat.odd (Datatypes.S n) = true) by (unfold Nat.odd; now rewrite Ev). apply Nat.odd_spec in O. destruct O as [m Em]. rewrite Em.
        replace ((Z.of_nat (2 * m + 1) + 1) / 2) with (Z.of_nat m + 1) by (apply Z.div_unique with 0; lia). lia. }
    pose proof (splice_app (words W' ++ e') old [] (D ++ c) (header (Datatypes.S n)) LW') as Sp.
    rewrite !app_nil_r, <- !app_assoc in Sp. rewrite Sp by (rewrite lenZ_app; lia). clear Sp.
    exists (words W' ++ e' ++ D ++ c), c. split; [reflexivity|]. split; [exact F|].
    unfold is_pack. rewrite app_length. cbn [length]. fold n. replace (n + 1)%nat with (Datatypes.S n) by lia.
    exists e'. split; [|exact Le']. rewrite concat_app. cbn [concat]. rewrite app_nil_r. fold D.
    f_equal. unfold W', O'. rewrite offsets_app, lenZ_app. fold D. do 2 f_equal; [lia|]. f_equal. lia.
Qed.
End Sz.
