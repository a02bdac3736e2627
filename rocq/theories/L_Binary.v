(** The binary files: what is saved is loaded, a part of a file is not. *)
From Coq Require Import ZArith Ascii String List Bool Lia Sorted.
From Verif Require Import M_Base L_Names L_Kdb L_Bytes S_Pack L_Pack L_Pack2 S_Time L_Time L_Ascii.
From Verif Require Import M_Names M_Lex M_Kdb M_Time M_Bytes M_Pack M_Codepage M_Ascii M_Binary M_Objects S_Binary L_Codepage L_Objects.
Import ListNotations.
Open Scope Z_scope.
Local Arguments Z.add : simpl never.
Local Arguments Z.mul : simpl never.
Local Arguments Z.of_nat : simpl never.
Local Arguments Z.pow : simpl never.

Lemma firstn_cases {A} n (a b : list A) :
  ((n < length a)%nat /\ firstn n (a ++ b) = firstn n a) \/
  ((length a <= n)%nat /\ firstn n (a ++ b) = a ++ firstn (n - length a) b).
Proof.
  destruct (Nat.lt_ge_cases n (length a)) as [H|H]; [left|right]; (split; [exact H|]); rewrite firstn_app.
  - replace (n - length a)%nat with O by lia. apply app_nil_r.
  - now rewrite (firstn_all2 a H).
Qed.
Lemma sub_at a x b o n : o = lenZ a -> n = lenZ x -> sub (a ++ x ++ b) o n = x.
Proof. intros -> ->. unfold sub. now rewrite skipZ_app, firstZ_app. Qed.
Lemma firstZ_app_le n a b : n <= lenZ a -> firstZ n (a ++ b) = firstZ n a.
Proof.
  intros H. unfold firstZ. rewrite firstn_app. unfold lenZ in H. replace (Z.to_nat n - length a)%nat with O by lia. apply app_nil_r.
Qed.
Lemma lenZ_cons x l : lenZ (x :: l) = 1 + lenZ l.
Proof. unfold lenZ. cbn [length]. lia. Qed.
Lemma read_len_le z r : long z -> read_len (le 8 z ++ r) = Some z.
Proof.
  intros H. unfold read_len. rewrite lenZ_app, lenZ_le. pose proof (lenZ_nonneg r).
  destruct (8 <=? Z.of_nat 8 + lenZ r) eqn:E; [|apply Z.leb_gt in E; lia]. rewrite (firstZ_le 8) by reflexivity. now rewrite signed_le8.
Qed.
Lemma kread_app a b n : n = lenZ a -> 0 < n -> kread n (a ++ b) = Some (a, b).
Proof.
  intros -> H. unfold kread. rewrite lenZ_app. pose proof (lenZ_nonneg b).
  assert ((0 <? lenZ a) && (lenZ a <=? lenZ a + lenZ b) = true) as ->
    by (apply andb_true_intro; split; [apply Z.ltb_lt|apply Z.leb_le]; lia).
  now rewrite firstZ_app, skipZ_app.
Qed.
Lemma kread_short n s : lenZ s < n -> kread n s = None.
Proof. intros H. unfold kread. destruct (n <=? lenZ s) eqn:E; [apply Z.leb_le in E; lia|]. now rewrite andb_false_r. Qed.
Lemma lenZ_firstn n (a : list Z) : lenZ (firstn n a) = Z.of_nat (Nat.min n (length a)).
Proof. unfold lenZ. now rewrite firstn_length. Qed.
Lemma read_len_short s : lenZ s < 8 -> read_len s = None.
Proof. intros H. unfold read_len. destruct (8 <=? lenZ s) eqn:E; [apply Z.leb_le in E; lia|reflexivity]. Qed.

Section Env.
Context (e : env).
Hypothesis Ls : lossless e.

Definition sized (p : list Z) : Prop := 16 <= lenZ p < 2 ^ 31 /\ signed_le (firstZ 8 p) = lenZ p.

(** A pack at the head of the stream. *)
Lemma sized_len p r : sized p -> read_len (p ++ r) = Some (lenZ p).
Proof.
  intros [H1 H2]. unfold read_len. rewrite lenZ_app. pose proof (lenZ_nonneg r).
  destruct (8 <=? lenZ p + lenZ r) eqn:E; [|apply Z.leb_gt in E; lia]. rewrite firstZ_app_le by lia. now rewrite H2.
Qed.
Lemma cwrite_cases m p k : cwrite e m p k = p \/ cwrite e m p k = le 8 (- lenZ (gz e p)) ++ gz e p.
Proof.
  unfold cwrite. destruct ((m =? 0) || (lenZ p <? k)); [now left|]. destruct ((0 <? k) && (lenZ p <=? lenZ (gz e p) + 8)); auto.
Qed.
Lemma pow_40_62 : 2 ^ 40 = 1099511627776 /\ 2 ^ 62 = 4611686018427387904 /\ 2 ^ 63 = 9223372036854775808.
Proof. repeat split. Qed.
Lemma gz_len p : lenZ p < 2 ^ 40 -> long (- lenZ (gz e p)) /\ 0 < lenZ (gz e p).
Proof.
  intros H. destruct (Ls p H) as [_ B]. destruct pow_40_62 as (A1 & A2 & A3). rewrite A2 in B. unfold long. rewrite A3. lia.
Qed.
Lemma read_pack_ok m p r : sized p -> read_pack e (cwrite e m p 20 ++ r) = Pack p r.
Proof.
  intros S. assert (H40 : lenZ p < 2 ^ 40) by (destruct S as [[_ S] _]; rewrite pow31 in S; rewrite (proj1 pow_40_62); lia).
  unfold read_pack. destruct (cwrite_cases m p 20) as [-> | ->].
  - rewrite sized_len by exact S. destruct S as [S _]. destruct (lenZ p <? 0) eqn:E; [apply Z.ltb_lt in E; lia|].
    now rewrite kread_app by (reflexivity || lia).
  - destruct (gz_len p H40) as [L P]. rewrite <- app_assoc, read_len_le by exact L.
    destruct (- lenZ (gz e p) <? 0) eqn:E; [|apply Z.ltb_ge in E; lia].
    rewrite kread_app by (rewrite ?lenZ_le; lia). rewrite kread_app by lia. now rewrite (proj1 (Ls p H40)).
Qed.
Lemma read_pack_short m p n : sized p -> (n < length (cwrite e m p 20))%nat -> read_pack e (firstn n (cwrite e m p 20)) = PShort.
Proof.
  intros S. assert (H40 : lenZ p < 2 ^ 40) by (destruct S as [[_ S] _]; rewrite pow31 in S; rewrite (proj1 pow_40_62); lia).
  unfold read_pack. destruct (Nat.lt_ge_cases n 8) as [H8|H8].
  { intros H. rewrite read_len_short; [reflexivity|]. rewrite lenZ_firstn. lia. }
  destruct (cwrite_cases m p 20) as [-> | ->]; intros H.
  - assert (E : read_len (firstn n p) = Some (lenZ p)).
    { unfold read_len. rewrite lenZ_firstn. destruct (8 <=? Z.of_nat (Nat.min n (length p))) eqn:E; [|apply Z.leb_gt in E; unfold sized, lenZ in S; lia].
      unfold firstZ. rewrite firstn_firstn. replace (Nat.min (Z.to_nat 8) n) with (Z.to_nat 8) by lia. f_equal. apply S. }
    rewrite E. destruct S as [S _]. destruct (lenZ p <? 0) eqn:E0; [apply Z.ltb_lt in E0; lia|].
    rewrite kread_short; [reflexivity|]. rewrite lenZ_firstn. unfold lenZ. lia.
  - destruct (gz_len p H40) as [L P]. rewrite app_length, le_length in H.
    rewrite firstn_app, (firstn_all2 (le 8 _)), le_length by (rewrite le_length; lia).
    rewrite read_len_le by exact L.
    destruct (- lenZ (gz e p) <? 0) eqn:E; [|apply Z.ltb_ge in E; lia].
    rewrite kread_app by (rewrite ?lenZ_le; lia). rewrite kread_short; [reflexivity|]. rewrite lenZ_firstn. unfold lenZ. lia.
Qed.

(** The table of names. *)
Lemma kobj_len n : name_ok n -> lenZ (kobj e n) = 32.
Proof.
  intros [C L]. unfold kobj. rewrite cstr_clean by exact C. rewrite !lenZ_app, lenZ_le, lenZ_bytes.
  rewrite lenZ_cons, lenZ_unset; lia.
Qed.
Lemma kobj_name n r : name_ok n -> cfield (sub (kobj e n ++ r) 8 21) = Some (bytes n).
Proof.
  intros [C L]. unfold kobj. rewrite cstr_clean by exact C. rewrite <- app_assoc. unfold sub. rewrite (skipZ_le 8) by reflexivity.
  rewrite <- app_assoc. cbn [app]. unfold firstZ. rewrite firstn_app.
  pose proof (lenZ_bytes n) as B. unfold lenZ in B.
  rewrite firstn_all2 by lia. change (Z.to_nat 21) with 21%nat.
  destruct (21 - length (bytes n))%nat eqn:E; [lia|]. cbn [firstn]. now apply cfield_bytes.
Qed.
Lemma table_names_ok names r : Forall name_ok names -> table_names (length names) (concat (map (kobj e) names) ++ r) = Some names.
Proof.
  induction 1 as [|n names H _ IH]; cbn [length table_names map concat]; [reflexivity|].
  rewrite <- app_assoc, kobj_name by exact H. rewrite <- (kobj_len n H), skipZ_app, IH. now rewrite text_of_bytes.
Qed.
Lemma table_len names : Forall name_ok names -> lenZ (concat (map (kobj e) names)) = 32 * Z.of_nat (length names).
Proof.
  induction 1 as [|n names H _ IH]; cbn [length map concat]; [reflexivity|]. rewrite lenZ_app, kobj_len, IH by exact H. lia.
Qed.

Definition table (names : list str) : list Z := concat (map (kobj e) names).
Lemma cwrite_table comp names : comp = 0 \/ comp = 2 -> cwrite e comp (table names) (-1) =
  if comp =? 0 then table names else le 8 (- lenZ (gz e (table names))) ++ gz e (table names).
Proof.
  intros C. unfold cwrite. destruct C as [-> | ->]; cbn [Z.eqb orb]; [reflexivity|].
  pose proof (lenZ_nonneg (table names)). destruct (lenZ (table names) <? -1) eqn:E; [apply Z.ltb_lt in E; lia|]. reflexivity.
Qed.
Lemma read_names_ok comp names r : comp = 0 \/ comp = 2 -> Forall name_ok names -> Z.of_nat (length names) < 2 ^ 31 ->
  read_names e comp (Z.of_nat (length names)) (cwrite e comp (table names) (-1) ++ r) = Names names r.
Proof.
  intros C F L. rewrite pow31 in L. pose proof (table_len names F) as T. fold (table names) in T.
  unfold read_names. destruct (Z.of_nat (length names) <? 0) eqn:E; [apply Z.ltb_lt in E; lia|].
  rewrite cwrite_table by exact C. destruct C as [-> | ->]; cbn [Z.eqb].
  - rewrite lenZ_app, T. pose proof (lenZ_nonneg r).
    destruct (32 * Z.of_nat (length names) <=? 32 * Z.of_nat (length names) + lenZ r) eqn:E2; [|apply Z.leb_gt in E2; lia].
    rewrite <- T at 1. rewrite firstZ_app. rewrite Nat2Z.id.
    rewrite <- (app_nil_r (table names)) at 1. unfold table at 1. rewrite table_names_ok by exact F. rewrite <- T. now rewrite skipZ_app.
  - assert (H40 : lenZ (table names) < 2 ^ 40) by (rewrite T, (proj1 pow_40_62); lia).
    destruct (gz_len _ H40) as [Lg P]. rewrite <- app_assoc, read_len_le by exact Lg.
    rewrite kread_app by (rewrite ?lenZ_le; lia). rewrite kread_app by lia. rewrite (proj1 (Ls _ H40)), T.
    assert (Z.of_nat (length names) / K_CHUNCK * K_CHUNCK <= Z.of_nat (length names) < (Z.of_nat (length names) / K_CHUNCK + 1) * K_CHUNCK).
    { unfold K_CHUNCK. pose proof (Z.mod_pos_bound (Z.of_nat (length names)) 65536). pose proof (Z.div_mod (Z.of_nat (length names)) 65536). lia. }
    match goal with |- context [if ?b then _ else _] => destruct b eqn:E2 end; [|apply Z.leb_gt in E2; lia].
    rewrite Nat2Z.id. unfold table. now rewrite table_names_ok.
Qed.
Lemma read_names_short comp names n : comp = 0 \/ comp = 2 -> Forall name_ok names -> Z.of_nat (length names) < 2 ^ 31 ->
  (n < length (cwrite e comp (table names) (-1)))%nat ->
  read_names e comp (Z.of_nat (length names)) (firstn n (cwrite e comp (table names) (-1))) = NShort.
Proof.
  intros C F L. rewrite pow31 in L. pose proof (table_len names F) as T. fold (table names) in T.
  unfold read_names. destruct (Z.of_nat (length names) <? 0) eqn:E; [apply Z.ltb_lt in E; lia|].
  rewrite cwrite_table by exact C. destruct C as [-> | ->]; cbn [Z.eqb]; intros H.
  - rewrite lenZ_firstn. unfold lenZ in T.
    destruct (32 * Z.of_nat (length names) <=? Z.of_nat (Nat.min n (length (table names)))) eqn:E2; [apply Z.leb_le in E2; lia|reflexivity].
  - destruct (Nat.lt_ge_cases n 8) as [H8|H8].
    { rewrite read_len_short; [reflexivity|]. rewrite lenZ_firstn. lia. }
    assert (H40 : lenZ (table names) < 2 ^ 40) by (rewrite T, (proj1 pow_40_62); lia).
    destruct (gz_len _ H40) as [Lg P]. rewrite app_length, le_length in H.
    rewrite firstn_app, (firstn_all2 (le 8 _)), le_length by (rewrite le_length; lia).
    rewrite read_len_le by exact Lg.
    rewrite kread_app by (rewrite ?lenZ_le; lia). rewrite kread_short; [reflexivity|]. rewrite lenZ_firstn. unfold lenZ. lia.
Qed.

Context {V : Type} (cd : codec V).

(** The header. *)
Lemma field_ok n s : clean s -> Z.of_nat (length s) <= n -> field n s = Some (bytes s ++ zeros (n - Z.of_nat (length s))).
Proof.
  intros C L. unfold field. rewrite (cstr_clean s C), lenZ_bytes. destruct (Z.of_nat (length s) <=? n) eqn:E; [reflexivity|apply Z.leb_gt in E; lia].
Qed.
Lemma cfield_field n s : clean s -> Z.of_nat (length s) < n -> cfield (bytes s ++ zeros (n - Z.of_nat (length s))) = Some (bytes s).
Proof.
  intros C L. unfold zeros. destruct (Z.to_nat (n - Z.of_nat (length s))) eqn:E; [lia|]. cbn [repeat]. now apply cfield_bytes.
Qed.
Lemma data_len s : lenZ (data_field e s) = 64.
Proof. destruct s as [s|]; cbn [data_field]; [|reflexivity]. rewrite lenZ_app, sample_bytes_len. reflexivity. Qed.
Lemma le4_of_le8 z : firstZ 4 (le 8 z) = le 4 z.
Proof. reflexivity. Qed.
Lemma type_code_range : 0 <= type_code (c_type cd) < 8.
Proof. destruct (c_type cd); cbn; lia. Qed.

Lemma header_ok comp (d : kdb V) : comp = 0 \/ comp = 2 -> k_arch d = ARCH -> -32768 <= k_mode d < 32768 -> clean (k_desc d) ->
  (length (k_desc d) < 64)%nat -> Z.of_nat (length (k_objs d)) < 2 ^ 31 ->
  exists h, header cd e comp d = Some h /\ lenZ h = 344 /\
    read_head h = Some (mkHead (Z.of_nat (length (k_objs d))) (type_code (c_type cd)) (k_mode d) ARCH (k_desc d)
      (if nth 0 (data_field e (k_smpl d)) 0 =? 0 then zeros 64 else data_field e (k_smpl d)) comp).
Proof.
  intros Cm A M C L N. unfold header. rewrite A. rewrite (field_ok 64) by (assumption || lia).
  assert (CA : clean ARCH) by (repeat constructor; discriminate).
  rewrite (field_ok 32 ARCH CA) by (cbn; lia).
  set (arch := bytes ARCH ++ zeros (32 - Z.of_nat (length ARCH))).
  set (desc := bytes (k_desc d) ++ zeros (64 - Z.of_nat (length (k_desc d)))).
  assert (La : lenZ arch = 32) by reflexivity.
  assert (Ld : lenZ desc = 64) by (unfold desc; rewrite lenZ_app, lenZ_bytes, lenZ_zeros by lia; lia).
  assert (Ca : cfield arch = Some (bytes ARCH)) by reflexivity.
  assert (Cd : cfield desc = Some (bytes (k_desc d))) by (apply cfield_field; [exact C|lia]).
  pose proof (data_len (k_smpl d)) as Lx. set (x := data_field e (k_smpl d)) in *.
  clearbody arch desc x. eexists. split; [reflexivity|].
  set (nb := Z.of_nat (length (k_objs d))) in *. set (ty := type_code (c_type cd)) in *. pose proof type_code_range as Ty. fold ty in Ty.
  set (b := le 8 0 ++ le 8 nb ++ le 2 ty ++ le 2 (k_mode d) ++ arch ++ zeros 32 ++ zeros 64 ++ desc ++ x ++ le 1 comp ++ zeros 59 ++ le 8 0).
  assert (Z8 : forall z, lenZ (le 8 z) = 8) by (intros; apply lenZ_le).
  assert (Z2 : forall z, lenZ (le 2 z) = 2) by (intros; apply lenZ_le).
  assert (Z1 : forall z, lenZ (le 1 z) = 1) by (intros; apply lenZ_le).
  assert (Zz : lenZ (zeros 32) = 32 /\ lenZ (zeros 64) = 64 /\ lenZ (zeros 59) = 59) by (repeat split). destruct Zz as (Zz1 & Zz2 & Zz3).
  split; [unfold b; rewrite !lenZ_app, !Z8, !Z2, Z1, La, Ld, Lx, Zz1, Zz2, Zz3; reflexivity|].
  assert (S1 : sub b 8 8 = le 8 nb) by (unfold b; apply sub_at; rewrite ?Z8; reflexivity).
  assert (S2 : sub b 16 2 = le 2 ty).
  { unfold b. rewrite app_assoc. apply sub_at; rewrite ?lenZ_app, ?Z8, ?Z2; reflexivity. }
  assert (S3 : sub b 18 2 = le 2 (k_mode d)).
  { unfold b. rewrite 2 app_assoc. apply sub_at; rewrite ?lenZ_app, ?Z8, ?Z2; reflexivity. }
  assert (S4 : sub b 20 32 = arch).
  { unfold b. rewrite 3 app_assoc. apply sub_at; rewrite ?lenZ_app, ?Z8, ?Z2; auto. }
  assert (S5 : sub b 148 64 = desc).
  { unfold b. rewrite 6 app_assoc. apply sub_at; rewrite ?lenZ_app, ?Z8, ?Z2, ?La, ?Zz1, ?Zz2; auto. }
  assert (S6 : sub b 212 64 = x).
  { unfold b. rewrite 7 app_assoc. apply sub_at; rewrite ?lenZ_app, ?Z8, ?Z2, ?La, ?Zz1, ?Zz2, ?Ld; auto. }
  assert (S7 : sub b 276 1 = le 1 comp).
  { unfold b. rewrite 8 app_assoc. apply sub_at; rewrite ?lenZ_app, ?Z8, ?Z2, ?La, ?Zz1, ?Zz2, ?Ld, ?Lx; auto. }
  unfold read_head. rewrite S1, S2, S3, S4, S5, S6, S7, Ca, Cd, le4_of_le8, !text_of_bytes.
  rewrite pow31 in N.
  rewrite (signed_le_le 4 nb) by (change (256 ^ Z.of_nat 4) with 4294967296; lia).
  rewrite (signed_le_le 2 ty) by (change (256 ^ Z.of_nat 2) with 65536; lia).
  rewrite (signed_le_le 2 (k_mode d)) by (change (256 ^ Z.of_nat 2) with 65536; lia).
  rewrite (signed_le_le 1 comp) by (change (256 ^ Z.of_nat 1) with 256; lia).
  reflexivity.
Qed.

(** The objects. *)
Definition packed (nb : Z) (x : str * V) (p : list Z) : Prop :=
  to_pack cd e (fst x) (snd x) = Packed p /\ P_get_len 8 p (-1) = Ok (lenZ p) /\ sized p /\ of_pack cd e nb (fst x) p = Done (Some (snd x)).
Definition blocks (comp : Z) (ps : list (list Z)) : list Z := flat_map (fun p => cwrite e comp p 20) ps.
Lemma packs nb (l : list (str * V)) : Forall (fun x => good cd e nb (fst x) (snd x)) l -> exists ps, Forall2 (packed nb) l ps.
Proof.
  induction 1 as [|x l (p & H1 & H2 & H3 & H4 & H5) _ [ps IH]]; [now exists []|]. exists (p :: ps). constructor; [|exact IH].
  repeat split; auto; lia.
Qed.
Lemma save_objects_ok comp nb l ps : Forall2 (packed nb) l ps -> save_objects cd e comp l = (Returned true, blocks comp ps).
Proof.
  induction 1 as [|[n v] p l ps (H1 & H2 & H3 & _) _ IH]; cbn [save_objects blocks flat_map]; [reflexivity|].
  cbn [fst snd] in H1. rewrite H1, H2. pose proof (lenZ_nonneg p).
  assert ((0 <=? lenZ p) && (lenZ p <=? lenZ p) = true) as -> by (apply andb_true_intro; split; apply Z.leb_le; lia).
  rewrite IH. now rewrite firstZ_all by lia.
Qed.
Definition stored (d : kdb V) (l : list (str * V)) : kdb V :=
  mkKdb (k_arch d) (k_mode d) (k_comp d) (k_desc d) (k_smpl d) (puts l (k_objs d)).
Lemma stored_nil d : stored d [] = d. Proof. now destruct d. Qed.
Lemma load_all_ok comp nb l ps : Forall2 (packed nb) l ps -> forall d r, nb_periods d = nb ->
  load_all cd e d (map fst l) (blocks comp ps ++ r) = (Returned true, stored d l).
Proof.
  induction 1 as [|[n v] p l ps (H1 & H2 & H3 & H4) _ IH]; intros d r D; cbn [map fst load_all blocks flat_map]; [now rewrite stored_nil|].
  rewrite <- app_assoc, read_pack_ok by exact H3. unfold unpack. rewrite D. cbn [fst snd] in H4. rewrite H4.
  rewrite IH by (destruct d; exact D). now destruct d.
Qed.
Lemma load_all_short comp nb l ps : Forall2 (packed nb) l ps -> forall d n, nb_periods d = nb -> (n < length (blocks comp ps))%nat ->
  exists d1, load_all cd e d (map fst l) (firstn n (blocks comp ps)) = (Returned false, d1) /\ k_objs d1 = [].
Proof.
  induction 1 as [|[n v] p l ps (H1 & H2 & H3 & H4) _ IH]; intros d m D L; cbn [map fst load_all blocks flat_map] in *; [cbn in L; lia|].
  destruct (firstn_cases m (cwrite e comp p 20) (blocks comp ps)) as [[A B]|[A B]]; unfold blocks in B; rewrite B; clear B.
  - rewrite read_pack_short by assumption. eexists. split; reflexivity.
  - rewrite read_pack_ok by exact H3. unfold unpack. rewrite D. cbn [fst snd] in H4. rewrite H4.
    rewrite app_length in L. apply (IH (store d n v)); [destruct d; exact D|]. unfold blocks. lia.
Qed.

(** The whole file. *)
Definition sample_good (d : kdb V) : Prop := match k_smpl d with None => True | Some s => c_type cd = VARIABLES /\ sample_fits s end.
Definition sound_kdb (d : kdb V) : Prop :=
  storable (fun n v => good cd e (nb_periods d) n v) d /\ sample_good d.

Lemma preload_ok comp (d d0 : kdb V) h :
  h = mkHead (Z.of_nat (length (k_objs d))) (type_code (c_type cd)) (k_mode d) ARCH (k_desc d)
      (if nth 0 (data_field e (k_smpl d)) 0 =? 0 then zeros 64 else data_field e (k_smpl d)) comp ->
  sample_good d -> k_smpl d0 = None -> k_arch d = ARCH ->
  preload cd d0 h = Some (mkKdb ARCH (k_mode d) comp (k_desc d) (k_smpl d) (k_objs d0)).
Proof.
  intros -> S N A. unfold preload. cbn [h_type h_data h_arch h_mode h_comp h_desc]. rewrite Z.eqb_refl, N. f_equal. f_equal.
  unfold sample_good in S. destruct (k_smpl d) as [s|].
  - destruct S as [-> (M & Y1 & Y2 & Y)]. cbn [data_field].
    assert (F : nth 0 (sample_bytes (smpl_junk e) s ++ zeros 8) 0 = year (s_start s) mod 256).
    { rewrite app_nth1; [apply sample_first|]. pose proof (sample_bytes_len (smpl_junk e) s) as X. unfold lenZ in X. lia. }
    rewrite F. destruct (year (s_start s) mod 256 =? 0) eqn:E; [apply Z.eqb_eq in E; contradiction|].
    rewrite F, E. f_equal. destruct (sample_steps s M) as (S1 & S2 & S3). rewrite pow31 in *.
    apply read_sample_ok; unfold long; rewrite ?(proj2 (proj2 pow_40_62)); lia.
  - cbn [data_field]. change (nth 0 (zeros 64) 0 =? 0) with true. cbn match. now destruct (c_type cd).
Qed.

Lemma save_ok (compress : bool) (d : kdb V) : sound_kdb d ->
  exists h ps, header cd e (if compress then 2 else 0) d = Some h /\ Forall2 (packed (nb_periods d)) (k_objs d) ps /\
    save cd e compress d = (Returned true, Some (K_LABEL ++ h ++ cwrite e (if compress then 2 else 0) (table (map fst (k_objs d))) (-1)
      ++ blocks (if compress then 2 else 0) ps)).
Proof.
  intros [(A & M & C & L & N & B & St & F) S]. set (comp := if compress then 2 else 0).
  assert (Cm : comp = 0 \/ comp = 2) by (unfold comp; destruct compress; auto).
  destruct (header_ok comp d Cm A M C L B) as (h & H & _).
  destruct (packs (nb_periods d) (k_objs d)) as (ps & P).
  { eapply Forall_impl; [|exact F]. intros x [_ G]. exact G. }
  exists h, ps. split; [exact H|]. split; [exact P|]. unfold save. fold comp.
  destruct (k_objs d) as [|x l] eqn:E; [contradiction|]. rewrite <- E in *.
  unfold save_binary. rewrite H, (save_objects_ok comp _ _ _ P).
  assert (forallb short_name (map fst (k_objs d)) = true) as ->; [|reflexivity].
  apply forallb_forall. intros n I. apply in_map_iff in I as (y & <- & I). rewrite Forall_forall in F. destruct (F y I) as [[Cn Ln] _].
  unfold short_name. rewrite (cstr_clean _ Cn), lenZ_bytes. apply Z.leb_le. lia.
Qed.

Lemma Some_inj {A} (a b : A) : Some a = Some b -> a = b.
Proof. congruence. Qed.
Lemma names_ok (d : kdb V) : sound_kdb d -> Forall name_ok (map fst (k_objs d)).
Proof.
  intros [(_ & _ & _ & _ & _ & _ & _ & F) _]. apply Forall_forall. intros n I. apply in_map_iff in I as (y & <- & I).
  rewrite Forall_forall in F. apply (F y I).
Qed.
Lemma label_len : lenZ K_LABEL = 11. Proof. reflexivity. Qed.
Lemma same_bytes_refl a : same_bytes a a = true.
Proof. induction a as [|x a IH]; cbn; [reflexivity|]. now rewrite Z.eqb_refl. Qed.
Lemma same_bytes_len a b : same_bytes a b = true -> length a = length b.
Proof. revert b. induction a as [|x a IH]; intros [|y b]; cbn; try discriminate; auto. intros H. apply andb_prop in H as [_ H]. f_equal. auto. Qed.

(** The file up to its objects. *)
Lemma load_head (compress : bool) (d : kdb V) h d0 r : sound_kdb d -> header cd e (if compress then 2 else 0) d = Some h -> k_smpl d0 = None -> k_objs d0 = [] ->
  forall w, load_binary cd e w (K_LABEL ++ h ++ r) d0 =
    match read_names e (if compress then 2 else 0) (Z.of_nat (length (k_objs d))) r with
    | NShort => (Returned false, mkKdb ARCH (k_mode d) (if compress then 2 else 0) (k_desc d) (k_smpl d) [])
    | NBad => (Undef, mkKdb ARCH (k_mode d) (if compress then 2 else 0) (k_desc d) (k_smpl d) [])
    | Names names s2 =>
      let d1 := mkKdb ARCH (k_mode d) (if compress then 2 else 0) (k_desc d) (k_smpl d) [] in
      match w with
      | [] => load_all cd e d1 names s2
      | _ =>
        if fixed_size cd then
          match read_len s2 with
          | None => (Returned false, clear d1)
          | Some len => load_some cd e d1 names w 0 len s2
          end
        else load_some cd e d1 names w 0 0 s2
      end
    end.
Proof.
  intros [(A & M & C & L & N & B & St & F) S] H N0 O0 w. set (comp := if compress then 2 else 0) in *.
  assert (Cm : comp = 0 \/ comp = 2) by (unfold comp; destruct compress; auto).
  destruct (header_ok comp d Cm A M C L B) as (h' & H' & Lh & R). rewrite H in H'. injection H' as <-.
  unfold load_binary. rewrite kread_app by reflexivity. rewrite same_bytes_refl. rewrite kread_app by (rewrite ?Lh; lia).
  rewrite R. rewrite (preload_ok comp d d0 _ eq_refl S N0 A). cbn [k_arch k_comp h_nb]. rewrite O0.
  change (str_eqb ARCH ARCH) with true. cbn match. reflexivity.
Qed.
Lemma load_is_binary (compress : bool) (d : kdb V) h d0 r : sound_kdb d -> header cd e (if compress then 2 else 0) d = Some h ->
  load cd e (K_LABEL ++ h ++ r) d0 = load_binary cd e [] (K_LABEL ++ h ++ r) (clear d0).
Proof.
  intros [(A & M & C & L & N & B & St & F) S] H. set (comp := if compress then 2 else 0) in *.
  assert (Cm : comp = 0 \/ comp = 2) by (unfold comp; destruct compress; auto).
  destruct (header_ok comp d Cm A M C L B) as (h' & H' & Lh & R). rewrite H in H'. injection H' as <-.
  unfold load. rewrite <- label_len at 1. rewrite firstZ_app, same_bytes_refl. rewrite <- label_len at 1. rewrite skipZ_app.
  rewrite kread_app by (rewrite ?Lh; lia). rewrite R. cbn [h_type]. now rewrite Z.eqb_refl.
Qed.

Lemma file_round_trip (compress : bool) (d : kdb V) : sound_kdb d -> round_trip cd e compress d.
Proof.
  intros Sd. destruct (save_ok compress d Sd) as (h & ps & H & P & E). eexists. split; [exact E|]. intros d0.
  rewrite (load_is_binary compress d h) by assumption. rewrite (load_head compress d h) by (assumption || reflexivity).
  pose proof Sd as [(A & M & C & L & N & B & St & F) S].
  rewrite <- (map_length fst). rewrite read_names_ok; [|destruct compress; auto|now apply names_ok|now rewrite map_length].
  cbv zeta. rewrite <- (app_nil_r (blocks _ ps)). rewrite (load_all_ok _ (nb_periods d)) by (exact P || reflexivity).
  eexists. split; [reflexivity|]. cbn [stored k_desc k_smpl k_objs k_arch k_mode]. repeat split; try congruence.
  rewrite puts_sorted; [reflexivity|]. exact St.
Qed.

Lemma file_truncation (compress : bool) (d : kdb V) : sound_kdb d -> truncation_seen cd e compress d.
Proof.
  intros Sd file n d0 E Ln. destruct (save_ok compress d Sd) as (h & ps & H & P & E'). rewrite E' in E.
  apply (f_equal snd) in E. apply Some_inj in E. subst file.
  pose proof Sd as [(A & M & C & L & N & B & St & F) S]. set (comp := if compress then 2 else 0) in *.
  assert (Cm : comp = 0 \/ comp = 2) by (unfold comp; destruct compress; auto).
  destruct (header_ok comp d Cm A M C L B) as (h' & H' & Lh & R). rewrite H in H'. injection H' as <-.
  match goal with |- context [firstn n (K_LABEL ++ ?x)] => destruct (firstn_cases n K_LABEL x) as [[X Y]|[X Y]]; rewrite Y; clear Y end.
  { exists (clear d0). split; [left|reflexivity]. unfold load.
    assert (Q : forall k, length k = 11%nat -> same_bytes (firstZ 11 (firstn n K_LABEL)) k = false).
    { intros k K. apply not_true_is_false. intros Q. apply same_bytes_len in Q. rewrite K in Q. unfold firstZ in Q.
      rewrite !firstn_length in Q. assert (length K_LABEL = 11%nat) by reflexivity. lia. }
    now rewrite !Q by reflexivity. }
  match goal with |- context [K_LABEL ++ firstn ?m (h ++ ?x)] => destruct (firstn_cases m h x) as [[X2 Y]|[X2 Y]]; rewrite Y; clear Y end.
  { exists (clear d0). split; [right|reflexivity]. unfold load. rewrite <- label_len at 1. rewrite firstZ_app, same_bytes_refl.
    rewrite <- label_len at 1. rewrite skipZ_app. rewrite kread_short; [reflexivity|]. rewrite lenZ_firstn. unfold lenZ in Lh. lia. }
  rewrite (load_is_binary compress d h) by assumption. rewrite (load_head compress d h) by (assumption || reflexivity). fold comp.
  match goal with |- context [firstn ?m (cwrite ?a ?b ?c ?f ++ ?x)] => destruct (firstn_cases m (cwrite a b c f) x) as [[X3 Y]|[X3 Y]]; rewrite Y; clear Y end.
  { rewrite <- (map_length fst). rewrite read_names_short; [|exact Cm|now apply names_ok|now rewrite map_length|exact X3].
    eexists. split; [left; reflexivity|reflexivity]. }
  rewrite <- (map_length fst). rewrite read_names_ok; [|exact Cm|now apply names_ok|now rewrite map_length]. cbv zeta.
  rewrite !app_length in Ln.
  match goal with |- context [load_all cd e ?d1 _ (firstn ?m _)] => destruct (load_all_short comp (nb_periods d) (k_objs d) ps P d1 m) as (d2 & Q & O) end.
  { reflexivity. }
  { lia. }
  exists d2. split; [left; exact Q|exact O].
Qed.

(** Selected names. *)
Lemma lower_bound_sorted pre n suf : StronglySorted (fun a b => str_ltb a b = true) (pre ++ n :: suf) ->
  lower_bound (pre ++ n :: suf) n = Some (length pre).
Proof.
  induction pre as [|x pre IH]; intros H; cbn [app lower_bound length].
  - destruct (str_ltb n n) eqn:E; [|reflexivity]. now apply str_lt_irrefl in E.
  - inversion H as [|? ? H1 H2]; subst. rewrite Forall_forall in H2. rewrite (H2 n) by (apply in_or_app; right; now left).
    now rewrite IH.
Qed.
Lemma blocks_raw ps : blocks 0 ps = concat ps.
Proof. induction ps as [|p ps IH]; [reflexivity|]. cbn [blocks flat_map concat]. unfold blocks in IH. now rewrite IH. Qed.
Lemma skip_ok ps r : Forall sized ps -> skip_objects (length ps) (concat ps ++ r) = Skipped r.
Proof.
  induction 1 as [|p ps H _ IH]; cbn [length skip_objects concat]; [reflexivity|]. rewrite <- app_assoc, sized_len by exact H.
  destruct H as [H _]. destruct (lenZ p <? 0) eqn:E; [apply Z.ltb_lt in E; lia|]. unfold kseek. rewrite E. now rewrite skipZ_app.
Qed.
Lemma same_len L (ps : list (list Z)) : Forall (fun p => lenZ p = L) ps -> lenZ (concat ps) = L * Z.of_nat (length ps).
Proof. induction 1 as [|p ps H _ IH]; cbn [length concat]; [unfold lenZ; cbn; lia|]. rewrite lenZ_app, H, IH. lia. Qed.
Lemma Forall2_sized nb l ps : Forall2 (packed nb) l ps -> Forall sized ps.
Proof. induction 1 as [|x p l ps (_ & _ & H & _) _ IH]; constructor; auto. Qed.
Lemma Forall2_length {A B} (R : A -> B -> Prop) l m : Forall2 R l m -> length l = length m.
Proof. induction 1; cbn; congruence. Qed.

Lemma load_some_ok nb L f : forall suf psuf, Forall2 (packed nb) suf psuf ->
  forall pre mid pmid d lpos len, StronglySorted (fun a b => str_ltb a b = true) (map fst (pre ++ mid ++ suf)) ->
  Forall2 (packed nb) mid pmid -> lpos = length pre -> nb_periods d = nb -> k_comp d = 0 ->
  (fixed_size cd = true -> len = L /\ Forall (fun p => lenZ p = L) (pmid ++ psuf)) ->
  load_some cd e d (map fst (pre ++ mid ++ suf)) (map fst (filter f suf)) lpos len (concat pmid ++ concat psuf) = (Returned true, stored d (filter f suf)).
Proof.
  induction 1 as [|[n v] p suf psuf P1 P2 IH]; intros pre mid pmid d lpos len St Pm -> D K Fx; cbn [filter map load_some]; [now rewrite stored_nil|].
  destruct (f (n, v)) eqn:Ef.
  - cbn [map fst load_some].
    assert (lower_bound (map fst (pre ++ mid ++ (n, v) :: suf)) n = Some (length pre + length mid)%nat) as ->.
    { rewrite app_assoc, map_app in *. cbn [map fst] in *. rewrite lower_bound_sorted by exact St. now rewrite map_length, app_length. }
    pose proof P1 as (_ & _ & Sz & G). cbn [fst snd] in G.
    assert (J : (if (k_comp d =? 0) && fixed_size cd then
          if (length pre <? length pre + length mid)%nat then match kseek (len * Z.of_nat (length pre + length mid - length pre)) (concat pmid ++ concat (p :: psuf)) with None => SBack | Some s' => Skipped s' end
          else Skipped (concat pmid ++ concat (p :: psuf))
        else skip_objects (length pre + length mid - length pre) (concat pmid ++ concat (p :: psuf))) = Skipped (concat (p :: psuf))).
    { rewrite K. cbn [Z.eqb andb]. pose proof (Forall2_length _ _ _ Pm) as Lm.
      replace (length pre + length mid - length pre)%nat with (length pmid) by lia.
      destruct (fixed_size cd).
      - destruct (Fx eq_refl) as [-> F]. apply Forall_app in F as [F1 F2].
        destruct (length pre <? length pre + length mid)%nat eqn:Q.
        + unfold kseek. rewrite <- (same_len L pmid F1). pose proof (lenZ_nonneg (concat pmid)).
          destruct (lenZ (concat pmid) <? 0) eqn:N; [apply Z.ltb_lt in N; lia|]. now rewrite skipZ_app.
        + apply Nat.ltb_ge in Q. destruct pmid; [reflexivity|cbn in Lm; lia].
      - apply skip_ok. exact (Forall2_sized _ _ _ Pm). }
    cbv zeta. rewrite J. cbn [concat]. rewrite sized_len by exact Sz. destruct Sz as [Sz _].
    destruct (lenZ p <? 0) eqn:N; [apply Z.ltb_lt in N; lia|]. rewrite kread_app by (reflexivity || lia).
    unfold unpack. rewrite D, G.
    specialize (IH (pre ++ mid ++ [(n, v)]) [] [] (store d n v) (S (length pre + length mid)) (lenZ p)).
    cbn [app concat] in IH. rewrite <- !app_assoc in IH. cbn [app] in IH. rewrite IH; [now destruct d|exact St|constructor| |destruct d; exact D|destruct d; exact K|].
    + rewrite !app_length. cbn. lia.
    + intros X. destruct (Fx X) as [_ F]. apply Forall_app in F as [_ F]. inversion F as [|? ? F1 F2]. cbn [app]. split; [exact F1|exact F2].
  - specialize (IH pre (mid ++ [(n, v)]) (pmid ++ [p]) d (length pre) len).
    rewrite concat_app in IH. cbn [concat] in IH. rewrite <- !app_assoc in IH. cbn [app] in IH.
    cbn [concat]. cbn [map fst] in *. rewrite IH; auto.
    apply Forall2_app; [exact Pm|]. constructor; [exact P1|constructor].
Qed.

Lemma sorted_same (a : list str) : forall b, StronglySorted (fun a b => str_ltb a b = true) a -> StronglySorted (fun a b => str_ltb a b = true) b ->
  (forall x, In x a <-> In x b) -> a = b.
Proof.
  induction a as [|x a IH]; intros [|y b] A B H.
  - reflexivity.
  - exfalso. apply (proj2 (H y)). now left.
  - exfalso. apply (proj1 (H x)). now left.
  - inversion A as [|? ? A1 A2]; inversion B as [|? ? B1 B2]; subst. rewrite Forall_forall in A2, B2.
    assert (x = y) as ->.
    { destruct (proj1 (H x) (or_introl eq_refl)) as [E|E]; [now subst|].
      destruct (proj2 (H y) (or_introl eq_refl)) as [E'|E']; [now subst|].
      exfalso. apply (str_lt_irrefl x). eapply str_lt_trans; [apply A2; exact E'|apply B2; exact E]. }
    f_equal. apply IH; auto. intros z. split; intros I.
    + destruct (proj1 (H z) (or_intror I)) as [->|E]; [|exact E]. exfalso. apply (str_lt_irrefl z). apply A2. exact I.
    + destruct (proj2 (H z) (or_intror I)) as [->|E]; [|exact E]. exfalso. apply (str_lt_irrefl z). apply B2. exact I.
Qed.
Lemma among_in l n : among l n = true <-> In n l.
Proof.
  unfold among. rewrite existsb_exists. split.
  - intros (x & I & E). apply str_eqb_iff in E. now subst.
  - intros I. exists n. split; [exact I|]. now apply str_eqb_iff.
Qed.
Lemma filter_sorted {A} (f : A -> bool) (g : A -> str) l : StronglySorted (fun a b => str_ltb a b = true) (map g l) ->
  StronglySorted (fun a b => str_ltb a b = true) (map g (filter f l)).
Proof.
  induction l as [|x l IH]; cbn [map filter]; intros H; [constructor|]. inversion H as [|? ? H1 H2]; subst.
  destruct (f x); [|auto]. cbn [map]. constructor; [auto|]. rewrite Forall_forall in *. intros y Hy. apply H2.
  apply in_map_iff in Hy as (z & <- & I). apply filter_In in I as [I _]. now apply in_map.
Qed.
Lemma wanted_filter (l : list (str * V)) names : StronglySorted (fun a b => str_ltb a b = true) (map fst l) ->
  StronglySorted (fun a b => str_ltb a b = true) names -> incl names (map fst l) ->
  map fst (filter (fun x => among names (fst x)) l) = names.
Proof.
  intros A B I. apply sorted_same; [now apply filter_sorted|exact B|]. intros x. split; intros H.
  - apply in_map_iff in H as (z & <- & H). apply filter_In in H as [_ H]. now apply among_in.
  - specialize (I x H). apply in_map_iff in I as (z & <- & I). apply in_map. apply filter_In. split; [exact I|]. now apply among_in.
Qed.

Lemma file_selection (d : kdb V) names L : sound_kdb d -> names <> [] -> StronglySorted (fun a b => str_ltb a b = true) names ->
  incl names (map fst (k_objs d)) ->
  (fixed_size cd = true -> forall x p, In x (k_objs d) -> to_pack cd e (fst x) (snd x) = Packed p -> lenZ p = L) ->
  selection_loads cd e d names.
Proof.
  intros Sd Ne Sn I Fx file d0 E O0 N0. destruct (save_ok false d Sd) as (h & ps & H & P & E'). rewrite E' in E.
  apply (f_equal snd) in E. apply Some_inj in E. subst file. cbn [snd] in *.
  pose proof Sd as [(A & M & C & L1 & N & B & St & F) S].
  rewrite (load_head false d h) by assumption. rewrite <- (map_length fst).
  rewrite read_names_ok; [|auto|now apply names_ok|now rewrite map_length]. cbv zeta. rewrite blocks_raw.
  set (d1 := mkKdb ARCH (k_mode d) 0 (k_desc d) (k_smpl d) []).
  assert (Fl : fixed_size cd = true -> Forall (fun p => lenZ p = L) ps).
  { intros X. specialize (Fx X). clear -P Fx. revert Fx. induction P as [|x p l ps (T & _) _ IH]; intros Fx; constructor.
    - apply (Fx x p (or_introl eq_refl) T).
    - apply IH. intros y q Iy. apply Fx. now right. }
  set (f := fun x : str * V => among names (fst x)).
  assert (Q : forall len, (fixed_size cd = true -> len = L) ->
    load_some cd e d1 (map fst (k_objs d)) names 0 len (concat ps) = (Returned true, stored d1 (filter f (k_objs d)))).
  { intros len Hl. pose proof (load_some_ok (nb_periods d) L f (k_objs d) ps P [] [] [] d1 O len) as Q. cbn [app concat length] in Q.
    unfold f at 1 in Q. rewrite wanted_filter in Q by assumption. apply Q; auto; try constructor. }
  assert (R : (if fixed_size cd then match read_len (concat ps) with None => (Returned false, clear d1) | Some len => load_some cd e d1 (map fst (k_objs d)) names 0 len (concat ps) end
     else load_some cd e d1 (map fst (k_objs d)) names 0 0 (concat ps)) = (Returned true, stored d1 (filter f (k_objs d)))).
  { destruct (fixed_size cd) eqn:X; [|apply Q; discriminate].
    pose proof (Forall2_sized _ _ _ P) as Sz. specialize (Fl eq_refl). destruct ps as [|p ps]; [inversion P; congruence|].
    inversion Sz; inversion Fl; subst. cbn [concat]. rewrite sized_len by assumption. apply (Q _ (fun _ => eq_refl)). }
  exists (stored d1 (filter f (k_objs d))). split; [destruct names; [contradiction|exact R]|].
  cbn [stored d1 k_desc k_smpl k_objs]. repeat split. rewrite puts_sorted; [reflexivity|]. apply filter_sorted. exact St.
Qed.
End Env.
