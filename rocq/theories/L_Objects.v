(** The packs of the objects: what is packed is unpacked. *)
From Coq Require Import ZArith Ascii String List Bool Lia.
From Verif Require Import M_Base L_Bytes S_Pack L_Pack L_Pack2 S_Time L_Time.
From Verif Require Import M_Names M_Lex M_Kdb M_Time M_Bytes M_Pack M_Codepage M_Ascii M_Binary M_Objects S_Binary L_Codepage.
Import ListNotations.
Open Scope Z_scope.
Local Arguments Z.add : simpl never.
Local Arguments Z.mul : simpl never.
Local Arguments Z.of_nat : simpl never.

(** What the file needs from the packs of a type. *)
Definition good {V} (cd : codec V) (e : env) (nb : Z) (name : str) (v : V) : Prop :=
  exists p, to_pack cd e name v = Packed p /\ 16 <= lenZ p < 2 ^ 31 /\ P_get_len 8 p (-1) = Ok (lenZ p) /\
    signed_le (firstZ 8 p) = lenZ p /\ of_pack cd e nb name p = Done (Some v).

Definition elem_ok (x : option (list Z) * Z) : Prop :=
  0 <= snd x /\ match fst x with Some d => snd x <= lenZ d | None => True end.
Definition content (x : option (list Z) * Z) : list Z :=
  match x with (Some d, lg) => firstn (Z.to_nat lg) d | (None, lg) => repeat 0 (Z.to_nat lg) end.
Definition total (l : list (option (list Z) * Z)) : Z := fold_right (fun x s => snd x + 4 + s) 0 l.

Lemma lenZ_unset f n : 0 <= n -> lenZ (unset f n) = n.
Proof. intros H. unfold lenZ, unset. rewrite map_length, seq_length. lia. Qed.

Lemma additions_sound j l : forall i, Forall elem_ok l -> Forall sound (additions j i l).
Proof.
  induction l as [|[x lg] l IH]; intros i H; cbn; [constructor|]. inversion H as [|? ? [H1 H2] H3]; subst. cbn in H1, H2.
  constructor; [|now apply IH]. repeat split; [exact H1|destruct x; [exact H2|exact I]|].
  fold (lenZ (unset (j i) (lg + 4))). rewrite lenZ_unset; lia.
Qed.
Lemma additions_length j l : forall i, length (additions j i l) = length l.
Proof. induction l as [|[x lg] l IH]; intros i; cbn; [reflexivity|]. now rewrite IH. Qed.
Lemma additions_rooms j l : forall i, Forall elem_ok l -> 0 <= rooms (additions j i l) <= total l.
Proof.
  induction l as [|[x lg] l IH]; intros i H; cbn; [lia|]. inversion H as [|? ? [H1 H2] H3]; subst. cbn in H1.
  specialize (IH (S i) H3). pose proof (room_bounds 8 (or_intror eq_refl) lg H1). fold (rooms (additions j (S i) l)).
  fold (total l). lia.
Qed.
Lemma additions_nth j l : forall i k x lg, nth_error l k = Some (x, lg) ->
  exists junk, nth_error (additions j i l) k = Some (x, lg, junk).
Proof.
  induction l as [|[y m] l IH]; intros i [|k] x lg H; try discriminate; cbn in *.
  - injection H as -> ->. eauto.
  - eauto.
Qed.

(** The length of a pack depends on those of its elements only. *)
Definition raw_size (l : list (option (list Z) * Z)) : Z :=
  8 * (2 + 2 * ((Z.of_nat (length l) + 1) / 2)) + fold_right (fun x s => room (snd x) + s) 0 l.
Lemma raw_size_ok j l : forall i, pack_size 8 (additions j i l) = raw_size l.
Proof.
  intros i. unfold pack_size, raw_size. rewrite additions_length. f_equal.
  revert i. induction l as [|[x lg] l IH]; intros i; cbn; [reflexivity|]. f_equal. apply IH.
Qed.

Lemma peek_prefix p o n m x : peek p o n = Ok x -> 0 <= m <= n -> peek p o m = Ok (firstZ m x).
Proof.
  unfold peek. intros H M. destruct ((0 <=? o) && (0 <=? n) && (o + n <=? lenZ p)) eqn:E; [|discriminate].
  apply andb_prop in E as [E E3]. apply andb_prop in E as [E1 E2]. apply Z.leb_le in E1, E2, E3.
  assert (((0 <=? o) && (0 <=? m) && (o + m <=? lenZ p)) = true) as ->.
  { apply andb_true_intro. split; [apply andb_true_intro; split|]; apply Z.leb_le; lia. }
  injection H as <-. f_equal. unfold firstZ. rewrite firstn_firstn. f_equal. lia.
Qed.

Lemma pack_up_spec e name l : Forall elem_ok l -> 8 * (Z.of_nat (length l) + 3) + total l < 2 ^ 31 ->
  exists p, pack_up e name l = Packed p /\ lenZ p = raw_size l /\ 16 <= lenZ p < 2 ^ 31 /\ P_get_len 8 p (-1) = Ok (lenZ p) /\
    signed_le (firstZ 8 p) = lenZ p /\
    forall k x, nth_error l k = Some x ->
      exists o pad, P_get_ptr 8 p (Z.of_nat k) = Ok (Some o) /\ P_get_len 8 p (Z.of_nat k) = Ok (room (snd x)) /\
        peek p o (room (snd x)) = Ok (content x ++ pad).
Proof.
  intros F B. set (l' := additions (pack_junk e name) 0 l).
  assert (R := additions_rooms (pack_junk e name) l O F). fold l' in R.
  assert (L : length l' = length l) by apply additions_length.
  assert (S : 16 <= pack_size (Z.of_nat 8) l' < 2 ^ 31).
  { unfold pack_size. rewrite L. change (Z.of_nat 8) with 8.
    assert (0 <= (Z.of_nat (length l) + 1) / 2) by (apply Z.div_pos; lia).
    assert (2 * ((Z.of_nat (length l) + 1) / 2) <= Z.of_nat (length l) + 1) by (apply Z.mul_div_le; lia). lia. }
  destruct (pack_ok 8 (or_intror eq_refl) l' (additions_sound _ _ _ F) (proj2 S)) as (p & E & Len & Nb & Pl & El & _).
  exists p. unfold pack_up. fold l'. rewrite E. split; [reflexivity|].
  assert (LZ : lenZ p = pack_size (Z.of_nat 8) l') by (unfold lenZ; exact Len).
  split; [rewrite LZ; apply raw_size_ok|]. split; [lia|]. split; [rewrite LZ; exact Pl|]. split.
  - unfold P_get_len in Pl. destruct (get_pos 8 p 0) as [p0| |] eqn:G; try discriminate. cbn [rbind] in Pl.
    destruct (p0 <=? 0) eqn:P0; [injection Pl as Pl; lia|]. change (-1 <? 0) with true in Pl. cbn match in Pl. injection Pl as Pl.
    unfold get_pos, peek in G. change (0 * Z.of_nat 8) with 0 in G. change (Z.of_nat 8) with 8 in *.
    destruct ((0 <=? 0) && (0 <=? 8) && (0 + 8 <=? lenZ p)); [|discriminate]. cbn [rbind] in G. injection G as G.
    change (skipZ 0 p) with p in G. lia.
  - intros k [x lg] H. cbn [snd]. destruct (additions_nth (pack_junk e name) l O k x lg H) as (junk & N). fold l' in N.
    destruct (El k _ N) as (H1 & _ & H2 & _ & pad & H3). cbn [fst snd] in H2.
    eexists; exists pad. split; [exact H1|]. split; [exact H2|].
    unfold P_alloc_get_ptr in H3. rewrite H2, H1 in H3. cbn [rbind] in H3.
    rewrite Forall_forall in F. destruct (F _ (nth_error_In _ _ H)) as [G _]. cbn in G.
    pose proof (room_bounds 8 (or_intror eq_refl) lg G).
    destruct (room lg <=? 0) eqn:Z0; [apply Z.leb_le in Z0; lia|].
    match type of H3 with rbind ?a _ = _ => destruct a as [y| |] eqn:Y; try discriminate end.
    cbn [rbind] in H3. injection H3 as ->. destruct x; reflexivity.
Qed.

(** Reading an element. *)
Definition elem (p : list Z) (k : nat) (x : option (list Z) * Z) : Prop :=
  exists o pad, P_get_ptr 8 p (Z.of_nat k) = Ok (Some o) /\ P_get_len 8 p (Z.of_nat k) = Ok (room (snd x)) /\
    peek p o (room (snd x)) = Ok (content x ++ pad).

Lemma text_of_bytes t : text_of (bytes t) = t.
Proof. unfold text_of, bytes. rewrite map_map. rewrite <- map_id. apply map_ext. apply chr_code. Qed.
Lemma cfield_bytes t r : clean t -> cfield (bytes t ++ 0 :: r) = Some (bytes t).
Proof.
  induction 1 as [|c t H _ IH]; cbn; [reflexivity|]. destruct (code c =? 0) eqn:E; [apply Z.eqb_eq in E; contradiction|].
  fold (bytes t). now rewrite IH.
Qed.
Lemma lenZ_bytes t : lenZ (bytes t) = Z.of_nat (length t).
Proof. unfold lenZ, bytes. now rewrite map_length. Qed.

Lemma text_at_ok p i k x t : elem p k x -> i = Z.of_nat k -> 0 <= snd x -> clean t -> (exists r, content x = bytes t ++ 0 :: r) ->
  text_at p i = Done t.
Proof.
  intros (o & pad & H1 & H2 & H3) -> L C (r & E). unfold text_at. rewrite H2, H1. cbn [of_res ibind].
  pose proof (room_bounds 8 (or_intror eq_refl) _ L).
  destruct (room (snd x) <? 0) eqn:Z0; [apply Z.ltb_lt in Z0; lia|]. rewrite H3. cbn [of_res ibind].
  rewrite E, <- app_assoc. cbn [app]. rewrite cfield_bytes by exact C. now rewrite text_of_bytes.
Qed.
Lemma content_len x : elem_ok x -> lenZ (content x) = snd x.
Proof.
  destruct x as [[d|] lg]; intros [H1 H2]; cbn in *.
  - apply firstZ_len. lia.
  - apply lenZ_zeros. lia.
Qed.
Lemma bytes_at_ok p i k x n : elem p k x -> i = Z.of_nat k -> elem_ok x -> 0 <= n <= snd x ->
  bytes_at p i n = Done (firstZ n (content x)).
Proof.
  intros (o & pad & H1 & H2 & H3) -> K N. unfold bytes_at. rewrite H1. cbn [of_res ibind].
  pose proof (room_bounds 8 (or_intror eq_refl) (snd x) (proj1 K)).
  rewrite (peek_prefix _ _ _ n _ H3) by lia. cbn [of_res]. f_equal.
  unfold firstZ. rewrite firstn_app. pose proof (content_len x K) as L. unfold lenZ in L.
  replace (Z.to_nat n - length (content x))%nat with O by lia. cbn [firstn]. now rewrite app_nil_r.
Qed.

Lemma zstring_ok t : elem_ok (zstring t).
Proof. split; cbn; [lia|]. rewrite lenZ_app, lenZ_bytes. cbn. unfold lenZ. cbn. lia. Qed.
Lemma zstring_content t : exists r, content (zstring t) = bytes t ++ 0 :: r.
Proof.
  exists []. cbn. rewrite firstn_all2; [reflexivity|]. rewrite app_length. unfold bytes. rewrite map_length. cbn. lia.
Qed.

Lemma pow31 : 2 ^ 31 = 2147483648. Proof. reflexivity. Qed.
Lemma pow30 : 2 ^ 30 = 1073741824. Proof. reflexivity. Qed.
Lemma pow28 : 2 ^ 28 = 268435456. Proof. reflexivity. Qed.

Lemma elems e name l : Forall elem_ok l -> 8 * (Z.of_nat (length l) + 3) + total l < 2 ^ 31 ->
  exists p, pack_up e name l = Packed p /\ 16 <= lenZ p < 2 ^ 31 /\ P_get_len 8 p (-1) = Ok (lenZ p) /\
    signed_le (firstZ 8 p) = lenZ p /\ forall k x, nth_error l k = Some x -> elem p k x.
Proof. intros F B. destruct (pack_up_spec e name l F B) as (p & H1 & _ & H2). now exists p. Qed.
Lemma pack_up_size e name l p : Forall elem_ok l -> 8 * (Z.of_nat (length l) + 3) + total l < 2 ^ 31 ->
  pack_up e name l = Packed p -> lenZ p = raw_size l.
Proof. intros F B E. destruct (pack_up_spec e name l F B) as (p' & H1 & H2 & _). congruence. Qed.

Lemma text_good cd e nb name v : to_pack cd = pack_text -> of_pack cd = unpack_text -> text_ok name v -> good cd e nb name v.
Proof.
  intros E1 E2 [H L]. destruct (in_codepage_text v H) as (t & C & U & B). pose proof (oem_length t C) as Lt. rewrite B in Lt.
  destruct (elems e name [zstring t]) as (p & P1 & P2 & P3 & P4 & P5).
  { constructor; [apply zstring_ok|constructor]. }
  { cbn. rewrite pow30 in L. lia. }
  exists p. rewrite E1, E2. unfold pack_text, unpack_text. rewrite U. repeat split; try assumption; try lia.
  rewrite (text_at_ok p 0 0 (zstring t) t (P5 O _ eq_refl)); [|reflexivity|cbn; lia|exact C|apply zstring_content].
  cbn [ibind]. now rewrite B.
Qed.

Lemma identity_good e nb name v : identity_ok e name v -> good identities e nb name v.
Proof.
  intros (N & [H L] & K1 & K2). destruct (in_codepage_text v H) as (t & C & U & B). pose proof (oem_length t C) as Lt. rewrite B in Lt.
  destruct (elems e name [zstring t; (None, 0)]) as (p & P1 & P2 & P3 & P4 & P5).
  { constructor; [apply zstring_ok|]. constructor; [split; cbn; [lia|exact I]|constructor]. }
  { cbn. rewrite pow30 in L. lia. }
  exists p. cbn [to_pack of_pack identities]. unfold pack_idt, unpack_idt. rewrite U, (K2 t U).
  destruct v as [|c v]; [contradiction|]. repeat split; try assumption; try lia.
  rewrite (text_at_ok p 0 0 (zstring t) t (P5 O _ eq_refl)); [|reflexivity|cbn; lia|exact C|apply zstring_content].
  cbn [ibind]. rewrite B. unfold identity_of. now rewrite K1.
Qed.

Lemma lenZ_le n z : lenZ (le n z) = Z.of_nat n.
Proof. revert z. induction n as [|n IH]; intros z; cbn; [reflexivity|]. unfold lenZ in *. cbn [length]. specialize (IH (z / 256)). lia. Qed.
Lemma firstZ_le n z r k : k = Z.of_nat n -> firstZ k (le n z ++ r) = le n z.
Proof. intros ->. rewrite <- (lenZ_le n z). apply firstZ_app. Qed.
Lemma skipZ_le n z r k : k = Z.of_nat n -> skipZ k (le n z ++ r) = r.
Proof. intros ->. rewrite <- (lenZ_le n z). apply skipZ_app. Qed.
Lemma skipn_add {A} a b (l : list A) : skipn (a + b) l = skipn b (skipn a l).
Proof. revert l. induction a as [|a IH]; intros [|x l]; cbn [Nat.add skipn]; try reflexivity; [now destruct b|apply IH]. Qed.
Lemma skipZ_add a b l : 0 <= a -> 0 <= b -> skipZ (a + b) l = skipZ b (skipZ a l).
Proof. intros. unfold skipZ. rewrite <- skipn_add. f_equal. lia. Qed.
Lemma word_le w : word w -> un_le (le 8 w) = w.
Proof. intros H. rewrite un_le_le. apply Z.mod_small. exact H. Qed.

Lemma scalar_good e nb name v : scalar_ok name v -> good scalars e nb name v.
Proof.
  intros (H1 & H2 & H3). set (d := le 8 (b_value v) ++ le 8 (b_relax v) ++ le 8 (b_std v)).
  assert (Ld : lenZ d = 24) by (unfold d; rewrite !lenZ_app, !lenZ_le; reflexivity).
  assert (K : elem_ok (Some d, 24)) by (split; cbn [fst snd]; lia).
  destruct (elems e name [(Some d, 24)]) as (p & P1 & P2 & P3 & P4 & P5).
  { constructor; [exact K|constructor]. }
  { unfold total; cbn [length fold_right snd]. rewrite pow31. lia. }
  exists p. cbn [to_pack of_pack scalars]. unfold pack_scl. fold d. repeat split; try assumption; try lia.
  unfold unpack_scl. destruct (P5 O _ eq_refl) as (o & pad & Q1 & Q2 & Q3). change (Z.of_nat 0) with 0 in *. rewrite Q1. cbn [of_res ibind].
  pose proof (room_bounds 8 (or_intror eq_refl) 24 ltac:(lia)). rewrite (peek_prefix _ _ _ 24 _ Q3) by (cbn [snd]; lia). cbn [of_res ibind].
  assert (firstZ 24 (content (Some d, 24) ++ pad) = d) as ->.
  { cbn [content]. change (Z.to_nat 24) with 24%nat. rewrite (firstn_all2 d) by (unfold lenZ in Ld; lia). rewrite <- Ld. apply firstZ_app. }
  unfold d. rewrite (firstZ_le 8) by reflexivity. unfold sub. rewrite (skipZ_le 8) by reflexivity. rewrite (firstZ_le 8) by reflexivity.
  change 16 with (8 + 8). rewrite skipZ_add, (skipZ_le 8), (skipZ_le 8) by (reflexivity || lia).
  rewrite <- (app_nil_r (le 8 (b_std v))), (firstZ_le 8) by reflexivity. rewrite !word_le by assumption. now destruct v.
Qed.

Lemma scalar_size e name v p : scalar_ok name v -> to_pack scalars e name v = Packed p -> lenZ p = raw_size [(None, 24)].
Proof.
  intros _ E. cbn [to_pack scalars] in E. unfold pack_scl in E. apply pack_up_size in E; [exact E| |].
  - constructor; [|constructor]. split; cbn [fst snd]; [lia|]. rewrite !lenZ_app, !lenZ_le. lia.
  - unfold total; cbn [length fold_right snd]. rewrite pow31. lia.
Qed.

Lemma flat_le_len v : lenZ (flat_map (le 8) v) = 8 * Z.of_nat (length v).
Proof. induction v as [|w v IH]; cbn [flat_map length]; [reflexivity|]. rewrite lenZ_app, lenZ_le, IH. lia. Qed.
Lemma words_of_le v : Forall word v -> forall r, words_of (length v) (flat_map (le 8) v ++ r) = v.
Proof.
  induction 1 as [|w v H _ IH]; intros r; cbn [length words_of flat_map]; [reflexivity|].
  rewrite <- app_assoc, (firstZ_le 8), (skipZ_le 8) by reflexivity. now rewrite IH, word_le.
Qed.

Lemma variable_good e nb name v : nb < 32768 -> variable_ok nb name v -> good variables e nb name v.
Proof.
  intros B [H1 H2]. set (d := flat_map (le 8) v). assert (Ld := flat_le_len v). fold d in Ld.
  assert (K : elem_ok (Some d, 8 * Z.of_nat (length v))) by (split; cbn [fst snd]; lia).
  destruct (elems e name [(Some d, 8 * Z.of_nat (length v))]) as (p & P1 & P2 & P3 & P4 & P5).
  { constructor; [exact K|constructor]. }
  { unfold total; cbn [length fold_right snd]. rewrite pow31. lia. }
  exists p. cbn [to_pack of_pack variables]. unfold pack_var. fold d. repeat split; try assumption; try lia.
  unfold unpack_var. destruct (P5 O _ eq_refl) as (o & pad & Q1 & Q2 & Q3). change (Z.of_nat 0) with 0 in *. rewrite Q1. cbn [of_res ibind].
  destruct (nb <? 0) eqn:N; [apply Z.ltb_lt in N; lia|]. rewrite <- H1.
  pose proof (room_bounds 8 (or_intror eq_refl) (8 * Z.of_nat (length v)) ltac:(lia)).
  rewrite (peek_prefix _ _ _ (8 * Z.of_nat (length v)) _ Q3) by (cbn [snd]; lia). cbn [of_res ibind].
  rewrite Nat2Z.id.
  assert (firstZ (8 * Z.of_nat (length v)) (content (Some d, 8 * Z.of_nat (length v)) ++ pad) = d) as ->.
  { cbn [content]. rewrite (firstn_all2 d) by (unfold lenZ in Ld; lia). rewrite <- Ld. apply firstZ_app. }
  rewrite <- (app_nil_r d). unfold d. now rewrite words_of_le.
Qed.

Lemma variable_size e nb name v p : nb < 32768 -> variable_ok nb name v -> to_pack variables e name v = Packed p ->
  lenZ p = raw_size [(None, 8 * nb)].
Proof.
  intros B [H1 H2] E. cbn [to_pack variables] in E. unfold pack_var in E. rewrite H1 in E. apply pack_up_size in E; [exact E| |].
  - constructor; [|constructor]. split; cbn [fst snd]; [lia|]. rewrite flat_le_len. lia.
  - unfold total; cbn [length fold_right snd]. rewrite pow31. lia.
Qed.

(** ** Equations *)

Definition long (z : Z) : Prop := - 2 ^ 63 <= z < 2 ^ 63.
Lemma signed_le8 z : long z -> signed_le (le 8 z) = z.
Proof. intros H. apply signed_le_le; [lia|]. unfold long in H. change (256 ^ Z.of_nat 8) with (2 * 2 ^ 63). lia. Qed.
Lemma period_bytes_len j p : lenZ (M_Binary.period_bytes j p) = 24.
Proof.
  unfold M_Binary.period_bytes. rewrite !lenZ_app, !lenZ_le. unfold lenZ at 1. cbn [length]. fold (lenZ (unset j 7)).
  change (Z.of_nat (S (length (unset j 7)))) with 8. lia.
Qed.
Lemma read_period_ok j p r : long (year p) -> long (step p) -> read_period (M_Binary.period_bytes j p ++ r) = p.
Proof.
  intros H1 H2. unfold read_period, M_Binary.period_bytes, sub. rewrite <- !app_assoc.
  rewrite (firstZ_le 8), (skipZ_le 8), (firstZ_le 8), !signed_le8 by (reflexivity || assumption).
  replace (nth 16 (le 8 (year p) ++ le 8 (step p) ++ (code (per p) :: unset j 7) ++ r) 0) with (code (per p)).
  - rewrite chr_code. now destruct p.
  - rewrite app_nth2; [|pose proof (lenZ_le 8 (year p)); unfold lenZ in *; lia].
    replace (length (le 8 (year p))) with 8%nat by (pose proof (lenZ_le 8 (year p)); unfold lenZ in *; lia).
    rewrite app_nth2; [|pose proof (lenZ_le 8 (step p)); unfold lenZ in *; lia].
    replace (length (le 8 (step p))) with 8%nat by (pose proof (lenZ_le 8 (step p)); unfold lenZ in *; lia). reflexivity.
Qed.
Lemma sample_bytes_len j s : lenZ (sample_bytes j s) = 56.
Proof. unfold sample_bytes. rewrite !lenZ_app, !period_bytes_len, lenZ_le, lenZ_unset by lia. reflexivity. Qed.
Lemma read_sample_ok j s r : long (year (s_start s)) -> long (step (s_start s)) -> long (year (s_end s)) -> long (step (s_end s)) ->
  -32768 <= s_nb s < 32768 -> read_sample (sample_bytes j s ++ r) = s.
Proof.
  intros H1 H2 H3 H4 H5. unfold read_sample, sample_bytes, sub. rewrite <- !app_assoc.
  rewrite read_period_ok by assumption.
  set (j2 := fun i => j (7 + i)%nat).
  replace 48 with (24 + 24) by reflexivity. rewrite skipZ_add by lia.
  rewrite <- (period_bytes_len j (s_start s)) at 1. rewrite skipZ_app.
  replace (skipZ 24 (M_Binary.period_bytes j (s_start s) ++ M_Binary.period_bytes j2 (s_end s) ++ le 2 (s_nb s) ++ unset (fun i => j (14 + i)%nat) 6 ++ r))
    with (M_Binary.period_bytes j2 (s_end s) ++ le 2 (s_nb s) ++ unset (fun i => j (14 + i)%nat) 6 ++ r)
    by (rewrite <- (period_bytes_len j (s_start s)); symmetry; apply skipZ_app).
  rewrite read_period_ok by assumption. rewrite <- (period_bytes_len j2 (s_end s)). rewrite skipZ_app.
  rewrite (firstZ_le 2) by reflexivity. rewrite signed_le_le; [now destruct s|lia|change (256 ^ Z.of_nat 2) with 65536; lia].
Qed.
Lemma sample_first j s : nth 0 (sample_bytes j s) 0 = (year (s_start s)) mod 256.
Proof. reflexivity. Qed.

Lemma floats_of_le v : Forall (fun w => 0 <= w < 2 ^ 32) v -> forall r, floats_of (length v) (flat_map (le 4) v ++ r) = v.
Proof.
  induction 1 as [|w v H _ IH]; intros r; cbn [length floats_of flat_map]; [reflexivity|].
  rewrite <- app_assoc, (firstZ_le 4), (skipZ_le 4) by reflexivity. rewrite IH, un_le_le. f_equal. apply Z.mod_small. exact H.
Qed.
Lemma flat_le4_len v : lenZ (flat_map (le 4) v) = 4 * Z.of_nat (length v).
Proof. induction v as [|w v IH]; cbn [flat_map length]; [reflexivity|]. rewrite lenZ_app, lenZ_le, IH. lia. Qed.

Lemma opt_text_ok t : elem_ok (opt_text t).
Proof. destruct t; [split; cbn; [lia|exact I]|apply zstring_ok]. Qed.
Lemma opt_text_content t : exists r, content (opt_text t) = bytes t ++ 0 :: r.
Proof. destruct t; [exists []; reflexivity|apply zstring_content]. Qed.
Lemma opt_text_lg t : 0 <= snd (opt_text t) <= Z.of_nat (length t) + 1.
Proof. destruct t; cbn; lia. Qed.

Lemma sample_steps s : sample_ok s -> 1 <= step (s_start s) <= 365 /\ 1 <= step (s_end s) <= 365 /\ 0 < s_nb s < 32768.
Proof.
  intros (n & N & (a & A1 & A2) & (b & B1 & B2) & _ & E).
  assert (a <= 365) by (destruct A1; lia). assert (b <= 365) by (destruct B1; lia). lia.
Qed.
Lemma sample_made s : sample_ok s -> make_sample (s_start s) (s_end s) = Ok s.
Proof.
  intros (n & N & A & B & S & E). unfold make_sample.
  assert (exists nb, sub_periods (per (s_start s)) nb) as (nb & Hn) by (destruct A as (nb & A1 & _); eauto).
  destruct (steps_ord _ _ _ S A nb Hn) as (P & _ & O).
  assert (Hn2 : sub_periods (per (s_end s)) nb) by (rewrite P; exact Hn).
  rewrite (difference_spec _ _ nb Hn2 (eq_sym P)). cbn [rbind]. rewrite O.
  replace (ord nb (s_start s) + Z.of_nat n - ord nb (s_start s)) with (Z.of_nat n) by lia.
  destruct (Z.of_nat n <? 0) eqn:L; [apply Z.ltb_lt in L; lia|]. f_equal. unfold to_short.
  rewrite Z.mod_small by lia. destruct s as [a b c]. cbn in *. f_equal. lia.
Qed.

Lemma set_sample_ok s : eq_sample_ok s -> forall j,
  set_sample (period_to_string (s_start (if nth 0 (sample_bytes j s) 0 =? 0 then no_sample else read_sample (sample_bytes j s))))
             (period_to_string (s_end (if nth 0 (sample_bytes j s) 0 =? 0 then no_sample else read_sample (sample_bytes j s)))) = Done s.
Proof.
  intros [->|(M & Y1 & Y2 & Y)] j; [reflexivity|].
  rewrite sample_first. destruct (year (s_start s) mod 256 =? 0) eqn:E; [apply Z.eqb_eq in E; contradiction|].
  pose proof (sample_steps s M) as (S1 & S2 & S3).
  rewrite <- (app_nil_r (sample_bytes j s)), read_sample_ok by (unfold long; lia).
  destruct M as (n & N & A & B & S & F) eqn:Q.
  pose proof (parse_print _ A Y1) as P1. pose proof (parse_print _ B Y2) as P2.
  unfold set_sample.
  destruct (period_to_string (s_start s)) as [|a1 l1] eqn:E1; [discriminate|].
  destruct (period_to_string (s_end s)) as [|a2 l2] eqn:E2; [discriminate|].
  unfold parse_sample. rewrite P1, P2. cbn [rbind]. rewrite (sample_made s); [reflexivity|]. now exists n.
Qed.

Lemma equation_good e nb name q : equation_ok e name q -> good equations e nb name q.
Proof.
  intros (N & [H L0] & K1 & K2 & Sv & Me & Sm & Co & Lc & Bl & Lb & In & Li & L & Da & T1 & T2).
  destruct (in_codepage_text _ H) as (t & C & U & B). pose proof (oem_length t C) as Lt. rewrite B in Lt.
  destruct (in_codepage_text _ In) as (ti & Ci & Ui & Bi). pose proof (oem_length ti Ci) as Lti. rewrite Bi in Lti.
  destruct (ascii_oem _ Co) as [Uc Bc].
  assert (Cc : clean (q_comment q)) by (eapply Forall_impl; [|exact Co]; cbn; intros; lia).
  set (j := pack_junk e name 100).
  set (x0 := (Some (bytes t ++ zeros (Z.of_nat (length (q_lec q)) + 1 - Z.of_nat (length t))), Z.of_nat (length (q_lec q)) + 1) : option (list Z) * Z).
  set (xs := (Some (sample_bytes j (q_sample q)), 56) : option (list Z) * Z).
  set (xt := (Some (flat_map (le 4) (q_tests q)), 80) : option (list Z) * Z).
  set (l := [x0; (None, 0); (Some (le 1 (q_solved q)), 1); (Some (le 1 (q_method q)), 1); xs;
             opt_text (q_comment q); opt_text (q_block q); opt_text ti; (Some (le 8 (q_date q)), 8); xt]).
  assert (X0 : elem_ok x0).
  { split; cbn [fst snd x0]; [lia|]. rewrite lenZ_app, lenZ_bytes, lenZ_zeros by lia. lia. }
  assert (XC : exists r, content x0 = bytes t ++ 0 :: r).
  { cbn [content x0]. rewrite firstn_all2.
      - assert (0 < Z.of_nat (length (q_lec q)) + 1 - Z.of_nat (length t)) by lia.
        unfold zeros. destruct (Z.to_nat (Z.of_nat (length (q_lec q)) + 1 - Z.of_nat (length t))) as [|z0] eqn:Z0; [lia|].
        exists (repeat 0 z0). reflexivity.
      - rewrite app_length. unfold bytes, zeros. rewrite map_length, repeat_length. lia. }
  assert (XS : elem_ok xs) by (split; cbn [fst snd xs]; [lia|rewrite sample_bytes_len; lia]).
  assert (XT : elem_ok xt) by (split; cbn [fst snd xt]; [lia|rewrite flat_le4_len, T1; lia]).
  assert (F : Forall elem_ok l).
  { unfold l. repeat (apply Forall_cons; [first [exact X0|exact XS|exact XT|apply opt_text_ok|split; cbn [fst snd]; [lia|try exact I; rewrite lenZ_le; lia]]|]).
    constructor. }
  pose proof (opt_text_lg (q_comment q)). pose proof (opt_text_lg (q_block q)). pose proof (opt_text_lg ti).
  destruct (elems e name l F) as (p & P1 & P2 & P3 & P4 & P5).
  { unfold l, total. cbn [length fold_right snd x0 xs xt]. rewrite pow31. rewrite pow28 in *. lia. }
  exists p. cbn [to_pack of_pack equations]. unfold pack_eq, unpack_eq. rewrite U, Uc, Ui, (K2 t U). fold j. fold x0. fold xs. fold xt. fold l.
  destruct (q_lec q) as [|c0 lec0] eqn:EL; [contradiction|]. rewrite <- EL in *.
  split; [exact P1|]. split; [exact P2|]. split; [exact P3|]. split; [exact P4|].
  rewrite (text_at_ok p 0 0 x0 t (P5 O _ eq_refl)); [|reflexivity|exact (proj1 X0)|exact C|exact XC].
  rewrite (bytes_at_ok p 3 3 _ 1 (P5 3%nat _ eq_refl)); [|reflexivity|split; cbn [fst snd]; rewrite ?lenZ_le; lia|cbn [snd]; lia].
  rewrite (text_at_ok p 5 5 _ (q_comment q) (P5 5%nat _ eq_refl)); [|reflexivity|lia|exact Cc|apply opt_text_content].
  rewrite (text_at_ok p 6 6 _ (q_block q) (P5 6%nat _ eq_refl)); [|reflexivity|lia|exact Bl|apply opt_text_content].
  rewrite (text_at_ok p 7 7 _ ti (P5 7%nat _ eq_refl)); [|reflexivity|lia|exact Ci|apply opt_text_content].
  rewrite (bytes_at_ok p 4 4 xs 56 (P5 4%nat _ eq_refl)); [|reflexivity|exact XS|cbn; lia].
  cbn [ibind].
  assert (firstZ 56 (content xs) = sample_bytes j (q_sample q)) as ->.
  { cbn [content xs]. pose proof (sample_bytes_len j (q_sample q)) as SL. unfold firstZ. rewrite firstn_firstn. apply firstn_all2. unfold lenZ in SL. lia. }
  rewrite B, EL, <- EL. rewrite (set_sample_ok _ Sm j). cbn [ibind]. rewrite Bc, Uc. cbn [of_res ibind].
  rewrite (bytes_at_ok p 2 2 _ 1 (P5 2%nat _ eq_refl)); [|reflexivity|split; cbn [fst snd]; rewrite ?lenZ_le; lia|cbn [snd]; lia].
  rewrite (bytes_at_ok p 8 8 _ 8 (P5 8%nat _ eq_refl)); [|reflexivity|split; cbn [fst snd]; [lia|rewrite lenZ_le; lia]|cbn; lia].
  rewrite (bytes_at_ok p 9 9 xt 80 (P5 9%nat _ eq_refl)); [|reflexivity|exact XT|cbn; lia].
  cbn [ibind].
  assert (forall z, firstZ 1 (content (Some (le 1 z), 1)) = le 1 z) as E1 by reflexivity. rewrite !E1.
  assert (firstZ 8 (content (Some (le 8 (q_date q)), 8)) = le 8 (q_date q)) as -> by reflexivity.
  assert (firstZ 80 (content xt) = flat_map (le 4) (q_tests q)) as ->.
  { cbn [content xt]. pose proof (flat_le4_len (q_tests q)) as SL. rewrite T1 in SL. unfold firstZ. rewrite firstn_firstn. apply firstn_all2. unfold lenZ in SL. lia. }
  assert (S1 : forall z, -128 <= z < 128 -> signed_le (le 1 z) = z).
  { intros z Hz. apply signed_le_le; [lia|]. change (256 ^ Z.of_nat 1) with 256. lia. }
  rewrite !S1 by lia. rewrite signed_le8 by exact Da.
  assert ((0 <=? q_method q) && (q_method q <? 5) = true) as ->.
  { apply andb_true_intro. split; [apply Z.leb_le|apply Z.ltb_lt]; lia. }
  rewrite K1, Bi. rewrite <- T1 at 1. rewrite <- (app_nil_r (flat_map (le 4) (q_tests q))), floats_of_le by exact T2.
  now destruct q.
Qed.
