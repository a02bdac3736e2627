(** Proofs about packs: sequences of additions and reading back. *)
From Coq Require Import ZArith List Bool Lia.
From Verif Require Import M_Base M_Bytes L_Bytes M_Pack S_Pack L_Pack.
Import ListNotations.
Open Scope Z_scope.
Local Arguments Z.add : simpl never.
Local Arguments Z.mul : simpl never.
Local Arguments Z.of_nat : simpl never.

Section Sz.
Variable sz : nat.
Hypothesis Hsz : sz = 4%nat \/ sz = 8%nat.
Let szZ := Z.of_nat sz.

Lemma rooms_nonneg l : Forall sound l -> 0 <= rooms l.
Proof.
  induction 1 as [|[[d lg] j] l H _ IH]; cbn [rooms fold_right]; [lia|].
  destruct H as [H _]. pose proof (room_bounds sz Hsz lg H). cbn [fst snd]. fold (rooms l). lia.
Qed.
Lemma header_mono m n : (m <= n)%nat -> header sz m <= header sz n.
Proof.
  intros H. unfold header. assert ((Z.of_nat m + 1) / 2 <= (Z.of_nat n + 1) / 2) by (apply Z.div_le_mono; lia). nia.
Qed.

Lemma P_add_all_spec l : forall buf chunks, is_pack sz buf chunks -> Forall sound l ->
  header sz (length chunks + length l) + lenZ (concat chunks) + rooms l < 2 ^ 31 ->
  exists buf' cs, P_add_all sz buf l = Ok buf' /\ Forall2 fits cs l /\ is_pack sz buf' (chunks ++ cs).
Proof.
  induction l as [|a l IH]; intros buf chunks P F B.
  - exists buf, []. rewrite app_nil_r. auto.
  - inversion F as [|? ? Sa Fl]; subst. pose proof (rooms_nonneg l Fl) as Rn.
    cbn [rooms fold_right length] in B. fold (rooms l) in B.
    pose proof (P_add_spec sz Hsz buf chunks a P Sa) as H.
    pose proof (header_mono (S (length chunks)) (length chunks + S (length l)) ltac:(lia)) as Hm.
    specialize (H ltac:(lia)). destruct a as [[d lg] junk]. destruct H as (b1 & c & E & Fc & P1).
    destruct (IH b1 (chunks ++ [c]) P1 Fl) as (b2 & cs & E2 & F2 & P2).
    + rewrite app_length. cbn [length]. replace (length chunks + 1 + length l)%nat with (length chunks + S (length l))%nat by lia.
      rewrite concat_app. cbn [concat]. rewrite app_nil_r, lenZ_app. destruct Fc as [-> _]. lia.
    + exists b2, (c :: cs). cbn [P_add_all]. rewrite E. cbn [rbind].
      split; [exact E2|]. split; [now constructor|]. rewrite <- app_assoc in P2. exact P2.
Qed.

Lemma fits_rooms cs l : Forall2 fits cs l -> lenZ (concat cs) = rooms l.
Proof.
  induction 1 as [|c a cs l [H _] _ IH]; [reflexivity|].
  cbn [concat rooms fold_right]. rewrite lenZ_app, H, IH. reflexivity.
Qed.
Lemma fits_firstn cs l : Forall2 fits cs l -> forall k, Forall2 fits (firstn k cs) (firstn k l).
Proof. induction 1; intros [|k]; cbn; constructor; auto. Qed.
Lemma fits_nth cs l : Forall2 fits cs l -> forall k a, nth_error l k = Some a -> exists c, nth_error cs k = Some c /\ fits c a.
Proof.
  induction 1 as [|c x cs l H _ IH]; intros [|k] a E; try discriminate; cbn in *.
  - inversion E; subst. eauto.
  - eauto.
Qed.
Lemma nth_concat (cs : list (list Z)) k c : nth_error cs k = Some c ->
  concat cs = concat (firstn k cs) ++ c ++ concat (skipn (S k) cs).
Proof.
  revert k. induction cs as [|x cs IH]; intros [|k] E; try discriminate; cbn in E.
  - inversion E; subst. reflexivity.
  - cbn [concat firstn]. rewrite <- app_assoc. f_equal. apply IH. exact E.
Qed.

Lemma rooms_mod l : rooms l mod 4 = 0.
Proof.
  induction l as [|a l IH]; [reflexivity|]. cbn [rooms fold_right]. fold (rooms l).
  unfold room. rewrite Z.add_comm, Z.mul_comm, Z.mod_add by lia. exact IH.
Qed.
Lemma header_mod n : header sz n mod 4 = 0.
Proof.
  unfold header. set (q := (Z.of_nat n + 1) / 2). apply Z.mod_divide; [lia|].
  destruct Hsz as [H|H]; rewrite H.
  - exists (2 + 2 * q). lia.
  - exists (2 * (2 + 2 * q)). lia.
Qed.

Lemma wanted_len a : sound a -> lenZ (wanted a) = snd (fst a).
Proof.
  destruct a as [[[x|] lg] j]; intros (H1 & H2 & _); cbn.
  - apply firstZ_len. unfold lenZ. lia.
  - apply lenZ_zeros. lia.
Qed.

Definition stored (buf : list Z) (l : list addition) (k : nat) (a : addition) : Prop :=
  let o := szZ * (2 + 2 * ((Z.of_nat (length l) + 1) / 2)) + rooms (firstn k l) in
  P_get_ptr sz buf (Z.of_nat k) = Ok (Some o) /\ o mod 4 = 0 /\
  P_get_len sz buf (Z.of_nat k) = Ok (room (snd (fst a))) /\
  firstn (length (wanted a)) (skipn (Z.to_nat o) buf) = wanted a /\
  exists pad, P_alloc_get_ptr sz buf (Z.of_nat k) = Ok (Some (wanted a ++ pad)).

Lemma pack_ok l : Forall sound l -> pack_size szZ l < 2 ^ 31 ->
  exists buf, pack_of sz l = Ok buf /\
    Z.of_nat (length buf) = pack_size szZ l /\
    P_nb sz buf = Ok (Z.of_nat (length l)) /\ P_get_len sz buf (-1) = Ok (pack_size szZ l) /\
    (forall k a, nth_error l k = Some a -> stored buf l k a) /\
    (forall i, i < 0 \/ Z.of_nat (length l) <= i -> P_get_ptr sz buf i = Ok None).
Proof.
  intros F B. pose proof (rooms_nonneg l F) as Rn.
  destruct (P_add_all_spec l (P_create sz) [] (is_pack_create sz Hsz) F) as (buf & cs & E & F2 & P).
  { cbn [length concat Nat.add]. unfold lenZ. cbn [length]. unfold pack_size in B.
    unfold header. fold szZ. change (Z.of_nat 0) with 0. rewrite Z.add_0_r. exact B. }
  cbn [app] in P. exists buf. split; [exact E|].
  assert (Ln : length cs = length l) by (clear -F2; induction F2; cbn; congruence). pose proof (fits_rooms cs l F2) as Lr.
  destruct P as (e & Eb & Le). rewrite Ln in *. set (n := length l) in *.
  rewrite Lr in Eb.
  assert (PS : header sz n + rooms l = pack_size szZ l) by reflexivity.
  rewrite PS in Eb. set (O := offsets (header sz n) cs) in *.
  pose proof (header_pos sz Hsz n) as Hp.
  assert (Hnb : Z.of_nat n < header sz n).
  { unfold header. assert (Z.of_nat n - 1 < 2 * ((Z.of_nat n + 1) / 2)).
    { pose proof (Z.div_mod (Z.of_nat n + 1) 2 ltac:(lia)). pose proof (Z.mod_pos_bound (Z.of_nat n + 1) 2 ltac:(lia)). lia. }
    nia. }
  assert (LO : length O = n) by (unfold O; now rewrite offsets_length).
  assert (G0 : get_pos sz buf 0 = Ok (pack_size szZ l)).
  { rewrite Eb. apply (get_pos_words sz Hsz [] _ _ _ 0); [reflexivity|]. apply (small_ok sz Hsz). lia. }
  assert (G1 : get_pos sz buf 1 = Ok (Z.of_nat n)).
  { rewrite Eb. apply (get_pos_words sz Hsz [_] _ _ _ 1); [reflexivity|]. apply (small_ok sz Hsz). lia. }
  assert (Gk : forall k, (k < n)%nat -> get_pos sz buf (Z.of_nat k + 2) = Ok (header sz n + rooms (firstn k l))).
  { intros k Hk. replace (Z.of_nat k + 2) with (Z.of_nat (S (S k))) by lia. rewrite Eb.
    assert (N : nth k O 0 = header sz n + rooms (firstn k l)).
    { unfold O. rewrite (offsets_nth sz Hsz) by lia. now rewrite (fits_rooms _ _ (fits_firstn _ _ F2 k)). }
    rewrite (get_pos_nth sz Hsz).
    - cbn [nth]. now rewrite N.
    - cbn [length]. lia.
    - cbn [nth]. apply (small_ok sz Hsz). unfold O. assert (In (nth k (offsets (header sz n) cs) 0) (offsets (header sz n) cs)) as Hin by (apply nth_In; rewrite offsets_length; lia).
      apply (offsets_bound sz Hsz) in Hin. rewrite Lr in Hin. lia. }
  assert (Lw : lenZ (words sz (pack_size szZ l :: Z.of_nat n :: O) ++ e) = header sz n).
  { rewrite lenZ_app, (lenZ_words sz Hsz), Le. cbn [length]. rewrite LO. unfold header. fold szZ.
    destruct (Nat.even n) eqn:Ev.
    - apply Nat.even_spec in Ev. destruct Ev as [m Em]. rewrite Em.
      replace ((Z.of_nat (2 * m) + 1) / 2) with (Z.of_nat m) by (apply Z.div_unique with 1; lia). lia.
    - assert (Od : Nat.odd n = true) by (unfold Nat.odd; now rewrite Ev). apply Nat.odd_spec in Od. destruct Od as [m Em]. rewrite Em.
      replace ((Z.of_nat (2 * m + 1) + 1) / 2) with (Z.of_nat m + 1) by (apply Z.div_unique with 0; lia). lia. }
  split. { fold (lenZ buf). rewrite Eb, app_assoc, lenZ_app, Lw, Lr. exact PS. }
  split; [exact G1|]. split.
  { unfold P_get_len. rewrite G0. cbn [rbind]. destruct (pack_size szZ l <=? 0) eqn:Z0; [apply Z.leb_le in Z0; lia|reflexivity]. }
  split.
  - intros k a Ek. assert (Hk : (k < n)%nat) by (apply nth_error_Some; congruence).
    destruct (fits_nth _ _ F2 k a Ek) as (c & Ec & Fc1 & p & Fc2).
    assert (Sa : sound a) by (apply nth_error_In in Ek; rewrite Forall_forall in F; auto).
    set (o := header sz n + rooms (firstn k l)).
    assert (Pt : P_get_ptr sz buf (Z.of_nat k) = Ok (Some o)).
    { unfold P_get_ptr. rewrite G1. cbn [rbind].
      rewrite (proj2 (Z.ltb_ge (Z.of_nat k) 0)), (proj2 (Z.ltb_ge (Z.of_nat n - 1) (Z.of_nat k))) by lia. cbn [orb].
      rewrite Gk by lia. reflexivity. }
    assert (SkR : rooms (firstn (S k) l) = rooms (firstn k l) + room (snd (fst a))).
    { clear -Ek. revert k Ek. induction l as [|x l IH]; intros [|k] Ek; try discriminate; cbn in Ek.
      - inversion Ek; subst. cbn [firstn rooms fold_right]. lia.
      - cbn [firstn rooms fold_right] in *. specialize (IH _ Ek). cbn [firstn] in IH. unfold rooms in IH. lia. }
    assert (Len : P_get_len sz buf (Z.of_nat k) = Ok (room (snd (fst a)))).
    { unfold P_get_len. rewrite G0. cbn [rbind].
      destruct (pack_size szZ l <=? 0) eqn:Z0; [apply Z.leb_le in Z0; lia|].
      rewrite (proj2 (Z.ltb_ge (Z.of_nat k) 0)) by lia. rewrite G1. cbn [rbind].
      rewrite (proj2 (Z.ltb_ge (Z.of_nat n - 1) (Z.of_nat k))) by lia.
      destruct (Z.of_nat k =? Z.of_nat n - 1) eqn:Last.
      - apply Z.eqb_eq in Last. rewrite Gk by lia. cbn [rbind]. f_equal.
        assert (firstn (S k) l = l) by (apply firstn_all2; fold n; lia). rewrite H in SkR. lia.
      - apply Z.eqb_neq in Last. replace (Z.of_nat k + 3) with (Z.of_nat (S k) + 2) by lia.
        rewrite !Gk by lia. cbn [rbind]. f_equal. lia. }
    pose proof (nth_concat cs k c Ec) as Cc.
    set (pre := words sz (pack_size szZ l :: Z.of_nat n :: O) ++ e) in *.
    assert (Lpre : lenZ (pre ++ concat (firstn k cs)) = o).
    { rewrite lenZ_app, Lw, (fits_rooms _ _ (fits_firstn _ _ F2 k)). reflexivity. }
    assert (Ebuf : buf = (pre ++ concat (firstn k cs)) ++ c ++ concat (skipn (S k) cs)).
    { rewrite Eb, app_assoc. fold pre. rewrite Cc at 1. now rewrite <- !app_assoc. }
    unfold stored. fold n. change (szZ * (2 + 2 * ((Z.of_nat n + 1) / 2)) + rooms (firstn k l)) with o. cbn zeta.
    split; [exact Pt|]. split.
    { unfold o. rewrite Z.add_mod, header_mod, rooms_mod by lia. reflexivity. }
    split; [exact Len|]. split.
    + rewrite Ebuf, <- Lpre. unfold lenZ. rewrite Nat2Z.id, skipn_app, skipn_all, Nat.sub_diag. cbn [skipn app].
      rewrite Fc2, <- app_assoc, firstn_app, Nat.sub_diag, firstn_all. cbn [firstn]. apply app_nil_r.
    + exists p. unfold P_alloc_get_ptr. rewrite Len. cbn [rbind].
      assert (R0 : 0 < room (snd (fst a))).
      { destruct a as [[d lg] j]. destruct Sa as [H _]. cbn. pose proof (room_bounds sz Hsz lg H). lia. }
      destruct (room (snd (fst a)) <=? 0) eqn:Z0; [apply Z.leb_le in Z0; lia|].
      rewrite Pt. cbn [rbind]. rewrite Ebuf.
      rewrite (peek_app (pre ++ concat (firstn k cs)) c) by (auto; lia). cbn [rbind]. now rewrite Fc2.
  - intros i Hi. unfold P_get_ptr. rewrite G1. cbn [rbind].
    destruct ((i <? 0) || (Z.of_nat n - 1 <? i)) eqn:X; [reflexivity|].
    apply orb_false_iff in X. rewrite !Z.ltb_ge in X. lia.
Qed.
End Sz.
